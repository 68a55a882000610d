(** Prop_FM2.v - property theorems C40 and C41: Fast Marching Square. *)
From Coq Require Import Reals Lra.
From Verif Require Import Base BaseFacts Num NumXR NumF64 NumLaws Grid GridFacts GridUpd GridMore XGrid Spec Obs Examples Eikonal FMMModel HeapLaws HeapRef
  Frame Solution FMMStruct FMMAbs FMMX SolverModel Lifecycle Prop_FMM Prop_Solver FM2Model FM2Facts.
Open Scope Z_scope.

(** A map for FM2: exact numbers, flagged clean and clean; its list of occupied cells (as the
    map loaders fill it, C44) holds exactly the obstacles, at least two of them. *)
Definition fm2_map dims (g : grid XR) : Prop :=
  g_clean g = true /\ exact_problem dims g (g_obs g) /\ (forall i, In i (g_obs g) <-> obstacle g i) /\ (2 <= length (g_obs g))%nat.

(** the velocity FM2 gives to a cell whose first-wave time is t, M being the largest;
    maxDistance -1 means no saturation *)
Definition target_velocity (maxDist h M t : R) : R :=
  if Req_EM_T maxDist (-1) then (t / M)%R
  else if Rlt_dec (t / M) (maxDist / h) then ((t / M) / (maxDist / h))%R else 1%R.

Section FM2.
Context (HO : HeapOps XR) (HL : HeapLaws HO).

Lemma getCell_clean {N : Num} (g : grid N) b i : getCell (setClean g b) i = getCell g i. Proof. reflexivity. Qed.
Lemma exact_setClean dims (g : grid XR) b init : exact_problem dims g init -> exact_problem dims (setClean g b) init.
Proof. intros [A [[B1 B2] [C D]]]. split; [exact A|]. split; [split; [exact B1|exact B2]|]. split; [exact C|exact D]. Qed.
Lemma separated_obstacles dims (g : grid XR) init : (forall i, In i init -> obstacle g i) -> separated dims g init.
Proof. intros H i j _ Hj _ [c [Hc Ho]]. destruct (H j Hj) as [c' [Hc' Ho']]. congruence. Qed.
Lemma in_range_not_goal dims i : shape_ok dims -> 0 <= i < box_size dims -> s32 i <> -1 /\ u32 i = i.
Proof.
  intros [_ Hlt] Hi. unfold s32, u32. rewrite Z.mod_small by lia. split; [|reflexivity]. destruct (Z.ltb_spec i 2147483648); lia.
Qed.

(** an inner solver that has never run *)
Definition inner_new (i : fmm_obj HO) : Prop := sv_grid (fo_s i) = GSet /\ sv_setup (fo_s i) = false /\ fo_band i = hempty HO /\ fo_strat i = NOHEUR.

Lemma sanity_no_goal dims (g : grid XR) s : shape_ok dims -> g_clean g = true -> sv_grid s = GSet -> (2 <= length (sv_init s))%nat ->
  (forall i, In i (sv_init s) -> 0 <= i < box_size dims) -> sv_goal s = Some (u32 (-1)) -> sanityChecks s g = Ok 0.
Proof.
  intros Hsh Hcl Hg Hl Hr Hk. unfold sanityChecks. rewrite Hg, Hcl. cbn [negb]. destruct (sv_init s) as [|i0 [|i1 r]] eqn:Ei; cbn in Hl; try lia.
  cbn [bind]. unfold goal_of. rewrite Hk. cbn [bind]. change (s32 (u32 (-1)) =? -1) with true. cbn [negb bind].
  destruct (existsb (fun i => s32 (u32 (-1)) =? s32 i) (i0 :: i1 :: r)) eqn:E; [|reflexivity].
  apply existsb_exists in E. destruct E as [i [Hi E]]. apply Z.eqb_eq in E. change (s32 (u32 (-1))) with (-1) in E.
  destruct (in_range_not_goal dims i Hsh (Hr i Hi)) as [Hne _]. congruence.
Qed.

(** the first wave *)
Lemma first_wave dims (g : grid XR) (i0 : fmm_obj HO) fuel :
  exact_problem dims g (g_obs g) -> (2 <= length (g_obs g))%nat -> (forall i, In i (g_obs g) -> obstacle g i) -> inner_new i0 ->
  box_size dims < Z.of_nat fuel ->
  exists st log, fmm_outcome HO no_heur noGoal (g_obs g) (setClean g false) fuel st log /\
    fmm_compute HO fuel (fmm_setPoints HO i0 (g_obs g) (-1)) (setClean g true) =
      Ok (mkFmm (mkSolver GSet true (g_obs g) (Some (u32 (-1)))) (fs_h st) NOHEUR (fo_dist i0) (fo_pre i0) (fo_coord i0), fs_g st) /\
    XS HO HL dims (g_obs g) (setClean g false) (fs_g st) (fs_h st) log /\ helems HO (fs_h st) = [].
Proof.
  intros HP Hl Hob [I1 [I2 [I3 I4]]] Hfuel. pose proof (exact_setClean _ _ false _ HP) as HP'. pose proof HP as [Hsh [_ [_ [_ Hr]]]].
  pose proof HP' as [[H2 Hlt] [[Hg Hc] [Hre [Hnd _]]]].
  assert (Hsep : separated dims (setClean g false) (g_obs g)) by (apply separated_obstacles; exact Hob).
  destruct (run_X HO HL dims H2 Hlt no_heur eq_refl (g_obs g) Hnd Hr (setClean g false) Hg Hre Hc Hsep noGoal fuel) as [st [log [A [X [Hd Hend]]]]].
  { pose proof (box_size_pos _ (dims2_proper' _ H2)); lia. }
  exists st, log. split; [exact A|].
  assert (He : helems HO (fs_h st) = []).
  { destruct Hend as [He|[r ->]]; [exact He|]. exfalso. pose proof (si_rng _ _ _ _ _ _ _ (xs_s _ _ _ _ _ _ _ _ X) noGoal) as K.
    assert (K' : 0 <= noGoal < box_size dims) by (apply K; apply in_or_app; right; left; reflexivity). unfold noGoal in K'. lia. }
  split; [|split; [exact X|exact He]].
  destruct i0 as [[sg ss si sk] band strat dist pre coord]. cbn [fo_s sv_grid sv_setup fo_band fo_strat] in I1, I2, I3, I4. subst sg ss band strat.
  unfold fmm_compute, fmm_setPoints, fmm_with_solver, setInitialAndGoalPoints. cbn [fo_s sv_setup sv_grid]. unfold fmm_setup, solver_setup.
  cbn [fo_s sv_setup sv_grid sv_init sv_goal fo_strat fo_band fo_dist fo_pre fo_coord].
  rewrite (sanity_no_goal dims); [|exact Hsh|reflexivity|reflexivity|exact Hl|exact Hr|reflexivity]. cbn [bind Z.eqb negb].
  cbn [fmm_setHeuristics bind goal_of sv_goal fo_strat fmm_with_solver fo_s sv_init fo_band fo_dist fo_pre fo_coord].
  rewrite fmm_run_noheur by reflexivity.
  change (setClean (setClean g true) false) with (setClean g false). change (u32 (-1)) with noGoal. unfold fmm_outcome in A. rewrite A. reflexivity.
Qed.

(** ** C40 *)
(** the grid after the velocity phase *)
Definition velocity_map dims (g : grid XR) (maxDist : R) (gv : grid XR) : Prop :=
  exists T M h, solution dims (obstacle g) (free g) (slow g) (2 * Rmargin) T /\ g_leaf g = XFin h /\
    (0 < M)%R /\ (exists i, 0 <= i < box_size dims /\ T i = Some M) /\ (forall i, obstacle g i -> T i = Some 0%R) /\
    grid_ok dims gv /\ g_leaf gv = g_leaf g /\
    forall i, 0 <= i < box_size dims -> exists t c, T i = Some t /\ (0 <= t <= M)%R /\ getCell gv i = Ok c /\
      c_occ c = XFin (target_velocity maxDist h M t) /\ c_val c = XPInf /\ c_state c = OPEN /\ c_h c = XFin 0.

Lemma solution_ext dims (src src' fr fr' : Z -> Prop) f f' d T : (forall i, src i <-> src' i) -> (forall i, fr i <-> fr' i) -> (forall i, f i = f' i) ->
  solution dims src fr f d T -> solution dims src' fr' f' d T.
Proof.
  intros Hs Hf He [[A1 A2] [[B1 B2 B3] C]]. split; [|split; [|exact C]].
  - constructor; [intros i Hi; apply A1, Hs, Hi|]. intros i t ms Ht Hn Hm. rewrite <- Hf, <- He. apply A2; [exact Ht|rewrite Hs; exact Hn|exact Hm].
  - constructor; [intros i Hi; apply B1, Hs, Hi| |].
    + intros i t ms Hi Hfr Hn Ht Hm. rewrite <- He. apply (B2 i t ms); [exact Hi|apply Hf, Hfr|rewrite Hs; exact Hn|exact Ht|exact Hm].
    + intros i j Hi Hfr Hn Ht Ha. apply (B3 i j); [exact Hi|apply Hf, Hfr|rewrite Hs; exact Hn|exact Ht|exact Ha].
Qed.

Lemma velocities_ok dims (g : grid XR) (o : fm2_obj HO) (md : R) fuel :
  exact_problem dims g (g_obs g) -> (2 <= length (g_obs g))%nat -> (forall i, In i (g_obs g) <-> obstacle g i) -> (exists i, free g i) ->
  f2_sources o = g_obs g -> f2_maxDist o = XFin md -> md <> 0%R -> inner_new (f2_inner o) -> box_size dims < Z.of_nat fuel ->
  exists st log gv, fm2_velocities HO fuel o g =
      Ok (mkFm2 (f2_s o) (g_obs g) (mkFmm (mkSolver GSet true (g_obs g) (Some (u32 (-1)))) (fs_h st) NOHEUR (fo_dist (f2_inner o)) (fo_pre (f2_inner o)) (fo_coord (f2_inner o)))
            (f2_maxDist o) (f2_heur o), gv) /\
    g_clean gv = true /\ g_obs gv = g_obs g /\ velocity_map dims g md gv /\
    XS HO HL dims (g_obs g) (setClean g false) (fs_g st) (fs_h st) log /\ helems HO (fs_h st) = [].
Proof.
  intros HP Hl Hob [iF HiF] Hsrc Hmd Hmd0 Hin Hfuel.
  destruct (first_wave dims g (f2_inner o) fuel HP Hl (fun i Hi => proj1 (Hob i) Hi) Hin Hfuel) as [st [log [A [Ec [X He]]]]].
  exists st, log. unfold fm2_velocities. rewrite Hsrc, Ec. cbn [bind]. eexists. split; [reflexivity|].
  pose proof (exact_setClean _ _ false _ HP) as HP'. pose proof HP as [[H2 Hlt] [[Hg Hc] [Hre [Hnd Hr]]]]. pose proof (dims2_proper' _ H2) as Hp.
  assert (Hsep : separated dims (setClean g false) (g_obs g)) by (apply separated_obstacles; intros i Hi; exact (proj1 (Hob i) Hi)).
  pose proof (xs_s _ _ _ _ _ _ _ _ X) as SI. pose proof (si_grid _ _ _ _ _ _ _ SI) as Hg1.
  (* every cell has a finite time *)
  assert (Hfin : forall i, 0 <= i < box_size dims -> exists t, time_is (fs_g st) i (XFin t)).
  { intros i Hi. apply (C17_reaches_exactly_connected HO HL dims (setClean g false) (g_obs g) fuel st log i HP' Hsep Hfuel A Hi).
    destruct (g_obs g) as [|k r] eqn:Eo; [cbn in Hl; lia|]. rewrite <- Eo in *.
    apply (obstacles_reach_all dims _ _ k); [apply Hr; rewrite Eo; left; reflexivity|exact Hp|rewrite Eo; left; reflexivity| |exact Hi].
    intros j Hj. destruct (getCell_in dims g j Hg Hj) as [c Hcj]. destruct (isOccupied c) eqn:Eoc; [left; apply Hob; exists c; auto|right; exists c; auto]. }
  assert (Hcells : forall c, In c (g_cells (fs_g st)) -> exists i r, 0 <= i < box_size dims /\ getCell (fs_g st) i = Ok c /\ c_val c = XFin r /\ (0 <= r)%R).
  { intros c Hcin. apply In_nth_error in Hcin. destruct Hcin as [n Hn]. exists (Z.of_nat n).
    assert (Hi : 0 <= Z.of_nat n < box_size dims).
    { destruct Hg1 as [_ <-]. assert (Hlt' : (n < length (g_cells (fs_g st)))%nat) by (apply nth_error_Some; congruence). lia. }
    assert (Hgc : getCell (fs_g st) (Z.of_nat n) = Ok c).
    { unfold getCell, vget. destruct (Z.leb_spec 0 (Z.of_nat n)); [|lia]. rewrite Nat2Z.id, Hn. reflexivity. }
    destruct (Hfin _ Hi) as [t Ht]. unfold time_is, getArrivalTime in Ht. rewrite Hgc in Ht. cbn [bind] in Ht.
    destruct (xs_tok _ _ _ _ _ _ _ _ X _ _ Hgc) as [E|[r [E Hr0]]]; [congruence|]. exists r. auto. }
  destruct (maxValue_XR (fs_g st)) as [M [EM [HM0 [HMle HMat]]]].
  { intros c Hcin. destruct (Hcells c Hcin) as [i [r [_ [_ K]]]]. exists r. exact K. }
  pose proof (C18_fmm_solves_eikonal HO HL dims (setClean g false) (g_obs g) fuel st log HP' Hsep Hfuel A) as Hsol.
  assert (HgetT : forall i c r, getCell (fs_g st) i = Ok c -> c_val c = XFin r -> times (fs_g st) i = Some r).
  { intros i c r Hi E. unfold times, getArrivalTime. rewrite Hi. cbn [bind]. rewrite E. reflexivity. }
  destruct Hre as [[h [Eh Hh]] Hocc].
  pose proof (xs_frame _ _ _ _ _ _ _ _ X) as HF. pose proof HF as [F1 [F2 [F3 [F4 [F5 F6]]]]].
  (* a free cell has a positive time *)
  assert (HMpos : (0 < M)%R).
  { assert (HiR : 0 <= iF < box_size dims). { destruct HiF as [c [Hci _]]. pose proof (getCell_range g iF c Hci) as K. destruct Hg as [_ Hlen]. rewrite Hlen in K. exact K. }
    destruct (Hfin iF HiR) as [t Ht]. pose proof Ht as Ht'. unfold time_is, getArrivalTime in Ht'. destruct (getCell (fs_g st) iF) as [c|] eqn:Hci; [|discriminate]. cbn [bind] in Ht'.
    assert (Et : c_val c = XFin t) by congruence.
    assert (Hcin : In c (g_cells (fs_g st))) by (unfold getCell in Hci; apply vget_ok in Hci; destruct Hci as [_ Hci]; apply nth_error_In in Hci; exact Hci).
    assert (HtM : (t <= M)%R) by (apply (HMle c t Hcin Et)).
    assert (Htpos : (0 < t)%R); [|lra]. pose proof (HgetT iF c t Hci Et) as HT. destruct Hsol as [[_ S2] [_ S3]].
    pose proof (S3 iF t HT) as Hge. destruct (Rle_lt_or_eq_dec 0 t Hge) as [|E0]; [assumption|exfalso]. subst t.
    assert (Hni : ~ In iF (g_obs g)). { intros Hi. apply Hob in Hi. destruct Hi as [c1 [K1 K2]]. destruct HiF as [c2 [K3 K4]]. congruence. }
    pose proof (dmins_spec dims (times (fs_g st)) iF Hp HiR) as Hms. set (ms := dmins dims (times (fs_g st)) iF) in *.
    destruct (S2 iF 0%R ms HT Hni Hms) as [_ Hle]. pose proof (slow_pos (setClean g false) iF (conj (ex_intro _ h (conj Eh Hh)) Hocc) HiF) as Hsl.
    assert (Hz : upwind_sum (somes ms) 0 = 0%R).
    { unfold upwind_sum. assert (Hpos : forall x, In x (somes ms) -> (0 <= x)%R).
      { intros x Hx. unfold somes in Hx. apply in_flat_map in Hx. destruct Hx as [[y|] [Hy Hx]]; [|destruct Hx]. destruct Hx as [<-|[]].
        unfold minima in Hms. apply In_nth_error in Hy. destruct Hy as [n Hy].
        assert (Hd : exists d, dim_min dims (times (fs_g st)) iF d (Some y)).
        { clear - Hms Hy. revert n Hy. induction Hms as [|a b la lb Hab Hr IH]; intros n Hy; [destruct n; discriminate|].
          destruct n as [|n]; cbn in Hy; [injection Hy as ->; eauto|eauto]. }
        destruct Hd as [d Hd]. destruct Hd as [[j [_ Hj]] _]. exact (S3 j y Hj). }
      revert Hpos. generalize (somes ms) as l. induction l as [|x l IH]; intros Hpos; cbn [map Rsum fold_right]; [reflexivity|].
      change (fold_right Rplus 0%R (map (fun t => Rsqr (Rmax (0 - t) 0)) l)) with (Rsum (map (fun t => Rsqr (Rmax (0 - t) 0)) l)).
      rewrite IH by (intros y Hy; apply Hpos; right; exact Hy). rewrite Rmax_right by (specialize (Hpos x (or_introl eq_refl)); lra). unfold Rsqr. lra. }
    rewrite Hz in Hle. assert (0 < slow (setClean g false) iF * slow (setClean g false) iF)%R by (apply Rmult_lt_0_compat; assumption). lra. }
  destruct (g_cells (fs_g st)) as [|c0 cr] eqn:Ecells.
  { exfalso. destruct Hg1 as [_ Hlen]. rewrite Ecells in Hlen. cbn in Hlen. pose proof (box_size_pos _ Hp). lia. }
  rewrite <- Ecells in *. clear Ecells c0 cr.
  split; [reflexivity|]. split; [exact F3|]. split; [|split; [exact X|exact He]].
  exists (times (fs_g st)), M, h. split.
  { apply (solution_ext dims (fun i => In i (g_obs g)) _ (free (setClean g false)) _ (slow (setClean g false)) _ _ _ Hob); [intros i; reflexivity|reflexivity|exact Hsol]. }
  split; [exact Eh|]. split; [exact HMpos|]. split.
  { destruct HMat as [->|[c [Hcin Ecv]]]; [lra|]. destruct (Hcells c Hcin) as [i [r [Hi [Hgc _]]]]. exists i. split; [exact Hi|]. apply (HgetT i c M Hgc Ecv). }
  split. { intros i Hi. destruct Hsol as [[S1 _] _]. apply S1. apply Hob. exact Hi. }
  split. { destruct Hg1 as [G1 G2]. split; [exact G1|]. cbn [setClean with_cells g_cells]. rewrite map_length. exact G2. }
  split; [exact F2|].
  intros i Hi. destruct (getCell_in dims (fs_g st) i Hg1 Hi) as [c Hci].
  assert (Hcin : In c (g_cells (fs_g st))) by (unfold getCell in Hci; apply vget_ok in Hci; destruct Hci as [_ Hci']; apply nth_error_In in Hci'; exact Hci').
  destruct (Hcells c Hcin) as [i' [r [_ [_ [Er Hr0]]]]].
  exists r, (fm2_rescale (f2_maxDist o) (g_leaf (fs_g st)) (getMaxValue (fs_g st)) c). split; [exact (HgetT i c r Hci Er)|].
  split; [split; [exact Hr0|exact (HMle c r Hcin Er)]|]. split.
  { unfold getCell, vget in Hci |- *. cbn [setClean with_cells g_cells]. destruct (0 <=? i); [|discriminate]. rewrite nth_error_map.
    destruct (nth_error (g_cells (fs_g st)) (Z.to_nat i)); [|discriminate]. injection Hci as <-. reflexivity. }
  unfold fm2_rescale. split; [|split; [reflexivity|split; [reflexivity|exact (xs_h _ _ _ _ _ _ _ _ X i c Hci)]]].
  cbn [c_occ with_state with_val with_occ]. rewrite EM, Hmd, Er. rewrite F2. change (g_leaf (setClean g false)) with (g_leaf g). rewrite Eh.
  unfold fm2_velocity, target_velocity. cbn. unfold Reqb, Rltb. destruct (Req_EM_T M 0); [lra|]. destruct (Req_EM_T md (-1)) as [->|Hne]; cbn; [reflexivity|].
  destruct (Req_EM_T h 0); [lra|]. cbn. unfold Rltb. destruct (Rlt_dec (r / M) (md / h)) as [Hlt'|]; [|reflexivity].
  assert (Hd0 : (md / h)%R <> 0%R). { intros E. apply Hmd0. apply (f_equal (fun x => (x * h)%R)) in E. unfold Rdiv in E. rewrite Rmult_assoc, Rinv_l in E by lra. lra. }
  unfold Reqb. destruct (Req_EM_T (md / h) 0); [contradiction|]. reflexivity.
Qed.

(** the velocity map is itself an exact problem, from any single cell *)
Lemma velocity_exact dims (g gv : grid XR) md p : shape_ok dims -> reals_ok g -> velocity_map dims g md gv -> 0 <= p < box_size dims -> exact_problem dims gv [p].
Proof.
  intros Hsh [[h' [Eh' Hh']] _] (T & M & h & _ & Eh & _ & _ & _ & Hg & El & Hc) Hp. split; [exact Hsh|].
  assert (Hr : forall i c, getCell gv i = Ok c -> exists t, c_occ c = XFin (target_velocity md h M t) /\ c_val c = XPInf /\ c_state c = OPEN /\ c_h c = XFin 0).
  { intros i c Hi. pose proof (getCell_range _ _ _ Hi) as K. destruct Hg as [_ Hlen]. rewrite Hlen in K. destruct (Hc i K) as [t [c' [_ [_ [Hi' R]]]]].
    assert (c' = c) by congruence. subst c'. exists t. exact R. }
  split; [split; [exact Hg|]|split; [split|split]].
  - intros i c Hi. destruct (Hr i c Hi) as [t [_ [A [B C]]]]. auto.
  - exists h'. rewrite El. auto.
  - intros i c Hi. destruct (Hr i c Hi) as [t [A _]]. eauto.
  - repeat constructor. intros [].
  - intros i [<-|[]]. exact Hp.
Qed.

Lemma separated_one {N : Num} dims (g : grid N) p : proper dims -> separated dims g [p].
Proof.
  intros Hp i j [<-|[]] [<-|[]] [cs [ds [H1 [H2 [H3 [H4 H5]]]]]]. exfalso.
  assert (cs = ds) by (apply (cell_number_inj dims); auto; congruence). subst ds. clear - H3. induction cs as [|c cs IH]; inversion H3; subst; [lia|auto].
Qed.

(** FM2 from new objects: the velocity map is computed, and the second wave gives the
    start the time of an Eikonal solution from the goal over that map. *)
(** an FM2 object ready to compute from s to goal on g: new, or reset *)
Definition fm2_fit (o : fm2_obj HO) (g : grid XR) s goal (md : R) : Prop :=
  f2_s o = mkSolver GSet false [s] (Some goal) /\ f2_sources o = g_obs g /\ f2_maxDist o = XFin md /\ inner_new (f2_inner o).

Lemma fm2_computes_from :
  forall dims (g : grid XR) (o : fm2_obj HO) s goal md fuel,
  fm2_map dims g -> free g s -> free g goal -> s <> goal -> md <> 0%R -> box_size dims < Z.of_nat fuel -> fm2_fit o g s goal md ->
  exists o' gv g', fm2_compute HO fuel o g = Ok (o', g') /\
    velocity_map dims g md gv /\
    (forall i, 0 <= i < box_size dims -> exists c c', getCell gv i = Ok c /\ getCell g' i = Ok c' /\ c_occ c' = c_occ c) /\
    (exists T2, solution dims (eq goal) (free gv) (slow gv) (2 * Rmargin) T2 /\ times g' s = T2 s) /\
    times g' goal = Some 0%R /\ (forall i t, times g' i = Some t -> i <> goal -> (0 < t)%R /\ free gv i) /\
    times_ok g' /\ grid_ok dims g' /\ g_clean g' = false /\ f2_s o' = mkSolver GSet true [s] (Some goal) /\ sv_grid (fo_s (f2_inner o')) = GSet /\
    f2_sources o' = g_obs g /\ f2_maxDist o' = XFin md /\ fo_strat (f2_inner o') = NOHEUR /\ g_obs g' = g_obs g /\ g_leaf g' = g_leaf g.
Proof.
  intros dims g [fs fsrc fin fmd fh] s goal md fuel [Hcl [HP [Hob Hl]]] Hs Hk Hne Hmd Hfuel [O1 [O2 [O3 O4]]]. cbn [f2_s f2_sources f2_maxDist f2_inner] in O1, O2, O3, O4. subst fs fsrc fmd.
  pose proof HP as [Hsh [[Hg Hc] [Hre [Hnd Hr]]]]. pose proof Hsh as [H2 Hlt]. pose proof (dims2_proper' _ H2) as Hp.
  assert (Ec : clean g = g) by (unfold clean; rewrite Hcl; reflexivity).
  assert (Hrs : 0 <= s < box_size dims) by (destruct Hs as [c [Hs _]]; apply getCell_range in Hs; destruct Hg as [_ <-]; exact Hs).
  assert (Hrk : 0 <= goal < box_size dims) by (destruct Hk as [c [Hk _]]; apply getCell_range in Hk; destruct Hg as [_ <-]; exact Hk).
  destruct (in_range_not_goal _ _ Hsh Hrs) as [Hs1 Hs2]. destruct (in_range_not_goal _ _ Hsh Hrk) as [Hk1 Hk2].
  (* the checks of setup *)
  assert (Esan : sanityChecks (mkSolver GSet false [s] (Some goal)) g = Ok 0).
  { unfold sanityChecks. cbn [sv_grid sv_init goal_of sv_goal]. rewrite Hcl. cbn [negb]. destruct Hs as [cs [Hcs Hos]]. rewrite Hcs. cbn [bind]. rewrite Hos.
    destruct (Z.eqb_spec (s32 goal) (-1)); [contradiction|]. cbn [negb]. destruct Hk as [ck [Hck Hok]]. rewrite Hck. cbn [bind]. rewrite Hok.
    cbn [existsb]. destruct (Z.eqb_spec (s32 goal) (s32 s)) as [E|]; [|reflexivity]. exfalso. apply Hne. symmetry. apply s32_inj; [lia|lia|exact E]. }
  set (o1 := mkFm2 (mkSolver GSet true [s] (Some goal)) (g_obs g) fin (XFin md : XR) fh).
  assert (Esetup : fm2_setup HO (mkFm2 (mkSolver GSet false [s] (Some goal)) (g_obs g) fin (XFin md : XR) fh) g = Ok (o1, setClean g false)).
  { unfold fm2_setup, solver_setup. cbn [f2_s f2_sources f2_inner f2_maxDist f2_heur]. rewrite Esan. unfold o1. clear - Hl. destruct (g_obs g) as [|k0 kr]; [cbn in Hl; lia|reflexivity]. }
  destruct (velocities_ok dims (setClean g false) o1 md fuel) as [st [log [gv [EV [Hclv [Hobv [HV [X He]]]]]]]].
  { apply exact_setClean. exact HP. } { exact Hl. } { exact Hob. } { exists s. exact Hs. } { reflexivity. } { reflexivity. } { exact Hmd. }
  { exact O4. } { exact Hfuel. }
  assert (HV' : velocity_map dims g md gv) by exact HV.
  pose proof (velocity_exact dims g gv md goal Hsh Hre HV' Hrk) as HPv. pose proof (separated_one dims gv goal Hp) as Hsv.
  (* the second wave, from the heap the first one left empty *)
  pose proof (with_empty_laws HO (fs_h st) HL (key (fs_g st)) (si_wf _ _ _ _ _ _ _ (xs_s _ _ _ _ _ _ _ _ X)) He (xs_ord _ _ _ _ _ _ _ _ X)) as HL2.
  set (HO2 := with_empty HO (fs_h st)) in *.
  pose proof HPv as [_ [[Hgv Hcv] [Hrev [Hndv Hrv]]]].
  assert (Hfu : (Z.to_nat (box_size dims) < fuel)%nat) by (pose proof (box_size_pos _ Hp); lia).
  destruct (run_X HO2 HL2 dims H2 Hlt no_heur eq_refl [goal] Hndv Hrv gv Hgv Hrev Hcv Hsv s fuel Hfu) as [sa [la [Ra [Xa [Hda _]]]]].
  destruct (run_X HO2 HL2 dims H2 Hlt no_heur eq_refl [goal] Hndv Hrv gv Hgv Hrev Hcv Hsv noGoal fuel Hfu) as [sb [lb [Rb [Xb _]]]].
  pose proof (C18_fmm_solves_eikonal HO2 HL2 dims gv [goal] fuel sb lb HPv Hsv Hfuel Rb) as Hsol.
  assert (Hsz : Z.of_nat (length (g_cells gv)) < 4294967296) by (destruct Hgv as [_ ->]; lia).
  destruct (C22_goal_run_is_prefix XR HO2 no_heur s [goal] gv fuel fuel sa la sb lb Hsz Ra Rb) as [Hcase [_ Hall]].
  assert (Esame : times (fs_g sa) s = times (fs_g sb) s).
  { destruct Hcase as [[-> _]|[r ->]]; [reflexivity|]. destruct (Hall s (or_introl eq_refl)) as [t [A B]]. unfold times. unfold time_is in A, B. rewrite A, B. reflexivity. }
  pose proof (sim_run HO (fs_h st) fuel no_heur s [goal] gv) as Hsim. fold HO2 in Hsim. rewrite Ra in Hsim. cbn [rmap fst snd] in Hsim.
  pose proof (h_base _ _ _ _ _ _ _ Hda) as Hba.
  eexists _, gv, _. split.
  { unfold fm2_compute, fm2_internal. cbn [f2_s setInitialAndGoalPoints sv_setup f2_sources f2_inner f2_maxDist f2_heur sv_grid sv_init sv_goal].
    rewrite Esetup. cbn [bind]. rewrite EV. cbn [bind f2_s o1 goal_of sv_goal sv_init]. change (vget [s] 0) with (Ok s : res Z). cbn [bind].
    cbn [f2_inner f2_heur]. unfold fmm_compute, fmm_setPoints, fmm_with_solver, setInitialAndGoalPoints.
    cbn [Z.leb Z.compare Z.to_nat nth_error bind fo_s sv_setup sv_grid sv_init sv_goal goal_of fo_strat fo_dist fo_coord fo_band fo_pre].
    rewrite Hs2. rewrite fmm_run_noheur by reflexivity. rewrite Hsim. cbn [bind]. reflexivity. }
  cbn [f2_s].
  assert (HFa := xs_frame _ _ _ _ _ _ _ _ Xa).
  split; [exact HV'|]. split.
  { intros i Hi. destruct (getCell_in dims gv i Hgv Hi) as [c Hci]. destruct HFa as [_ [_ [_ [_ [_ F6]]]]]. destruct (F6 i c Hci) as [c' [K1 [K2 _]]]. exists c, c'. auto. }
  split.
  { exists (times (fs_g sb)). split; [|exact Esame].
    apply (solution_ext dims (fun i => In i [goal]) _ (free gv) _ (slow gv)); [|reflexivity|reflexivity|exact Hsol]. intros i. cbn. tauto. }
  split. { exact (proj2 (b_init _ _ _ _ _ _ _ Hba goal (or_introl eq_refl))). }
  split. { intros i t Ht Hi. destruct (b_reached _ _ _ _ _ _ _ Hba i t Ht) as [_ [A [B _]]]; [intros [E|[]]; congruence|]. split; [exact A|exact B]. }
  split. { exact (xs_tok _ _ _ _ _ _ _ _ Xa). }
  split. { exact (si_grid _ _ _ _ _ _ _ (xs_s _ _ _ _ _ _ _ _ Xa)). }
  repeat (split; [reflexivity|]).
  destruct HFa as [_ [FL [FO [_ _]]]]. pose proof HV' as (_ & _ & _ & _ & _ & _ & _ & _ & _ & ELv & _).
  split; [exact (eq_trans FO Hobv)|exact (eq_trans FL ELv)].
Qed.

Theorem C40_fm2_computes :
  forall dims (g : grid XR) s goal md fuel,
  fm2_map dims g -> free g s -> free g goal -> s <> goal -> md <> 0%R -> box_size dims < Z.of_nat fuel ->
  exists o g0 o' gv g', fm2_setEnvironment HO (fm2_new HO (XFin md : XR)) (Some g) = Ok (o, g0) /\
    fm2_compute HO fuel (fm2_setPoints HO o [s] goal) g0 = Ok (o', g') /\
    velocity_map dims g md gv /\
    (forall i, 0 <= i < box_size dims -> exists c c', getCell gv i = Ok c /\ getCell g' i = Ok c' /\ c_occ c' = c_occ c) /\
    (exists T2, solution dims (eq goal) (free gv) (slow gv) (2 * Rmargin) T2 /\ times g' s = T2 s) /\
    times g' goal = Some 0%R /\ (forall i t, times g' i = Some t -> i <> goal -> (0 < t)%R /\ free gv i) /\
    times_ok g' /\ grid_ok dims g' /\ g_clean g' = false /\ f2_s o' = mkSolver GSet true [s] (Some goal) /\ sv_grid (fo_s (f2_inner o')) = GSet.
Proof.
  intros dims g s goal md fuel [Hcl [HP [Hob Hl]]] Hs Hk Hne Hmd Hfuel.
  pose proof HP as [Hsh [[Hg _] _]].
  assert (Hrk : 0 <= goal < box_size dims) by (destruct Hk as [c [Hk _]]; apply getCell_range in Hk; destruct Hg as [_ <-]; exact Hk).
  destruct (in_range_not_goal _ _ Hsh Hrk) as [_ Hk2]. assert (Ec : clean g = g) by (unfold clean; rewrite Hcl; reflexivity).
  assert (EE : fm2_setEnvironment HO (fm2_new HO (XFin md : XR)) (Some g) =
    Ok (mkFm2 (mkSolver GSet false [] None) (g_obs g) (mkFmm (mkSolver GSet false [] None) (hempty HO) NOHEUR [] false []) (XFin md : XR) NOHEUR, g)).
  { unfold fm2_setEnvironment. cbn. rewrite Ec, Ec. reflexivity. }
  eexists _, _. 
  destruct (fm2_computes_from dims g (fm2_setPoints HO (mkFm2 (mkSolver GSet false [] None) (g_obs g) (mkFmm (mkSolver GSet false [] None) (hempty HO) NOHEUR [] false []) (XFin md : XR) NOHEUR) [s] goal) s goal md fuel)
    as [o' [gv [g' [A1 [A2 [A3 [A4 [A5 [A6 [A7 [A8 [A9 [A10 [A11 _]]]]]]]]]]]]]];
    [split; auto|exact Hs|exact Hk|exact Hne|exact Hmd|exact Hfuel| |].
  { unfold fm2_fit, fm2_setPoints, setInitialAndGoalPoints. cbn. rewrite Hk2. repeat split. }
  exists o', gv, g'. split; [exact EE|]. auto 20.
Qed.
End FM2.

(** what the velocity map looks like without saturation (maxDistance = -1): velocities in
    [0,1], 0 at the obstacles, 1 attained, all cells open with infinite time *)
Theorem C40_velocities_are_normalised :
  forall dims (g gv : grid XR), velocity_map dims g (-1) gv ->
  (forall i, 0 <= i < box_size dims -> exists c v, getCell gv i = Ok c /\ c_occ c = XFin v /\ (0 <= v <= 1)%R /\ (obstacle g i -> v = 0%R) /\
      c_val c = XPInf /\ c_state c = OPEN) /\
  (exists i c, getCell gv i = Ok c /\ c_occ c = XFin 1).
Proof.
  intros dims g gv (T & M & h & _ & Eh & HM & [iM [HiM ETM]] & Hob & Hg & El & Hc).
  assert (Etv : forall t, target_velocity (-1) h M t = (t / M)%R) by (intros t; unfold target_velocity; destruct (Req_EM_T (-1) (-1)); [reflexivity|lra]).
  split.
  - intros i Hi. destruct (Hc i Hi) as [t [c [HT [Ht [Hci [Ho [Hv [Hst _]]]]]]]]. rewrite Etv in Ho. exists c, (t / M)%R. split; [exact Hci|]. split; [exact Ho|].
    split; [split; [apply Rle_mult_inv_pos; lra|apply (Rmult_le_reg_r M); [lra|]; unfold Rdiv; rewrite Rmult_assoc, Rinv_l; lra]|].
    split; [|auto]. intros Hi'. rewrite (Hob i Hi') in HT. injection HT as <-. unfold Rdiv. lra.
  - destruct (Hc iM HiM) as [t [c [HT [Ht [Hci [Ho _]]]]]]. rewrite Etv in Ho. exists iM, c. split; [exact Hci|]. rewrite Ho.
    assert (t = M) by congruence. subst t. f_equal. unfold Rdiv. apply Rinv_r. lra.
Qed.

(** With a saturation distance of at least one leaf size nothing is saturated: the velocities
    are the normalised times divided by maxDistance/leafsize, so the fastest cell has
    velocity leafsize/maxDistance, whatever its distance to the obstacles. *)
Theorem C40_saturation_does_not_saturate :
  forall dims (g gv : grid XR) md h, velocity_map dims g md gv -> g_leaf g = XFin h -> (0 < h)%R -> (h <= md)%R ->
  exists T M, solution dims (obstacle g) (free g) (slow g) (2 * Rmargin) T /\ (exists i, 0 <= i < box_size dims /\ T i = Some M) /\
  (forall i, 0 <= i < box_size dims -> exists c t, T i = Some t /\ getCell gv i = Ok c /\ c_occ c = XFin ((t / M) * (h / md))) /\
  (exists i c, getCell gv i = Ok c /\ c_occ c = XFin (h / md)) /\
  (forall i c v, getCell gv i = Ok c -> c_occ c = XFin v -> (v <= h / md)%R).
Proof.
  intros dims g gv md h (T & M & h' & HS & Eh & HM & [iM [HiM ETM]] & Hob & Hg & El & Hc) Eh2 Hh Hmd. assert (h' = h) by congruence. subst h'.
  assert (Hd : (1 <= md / h)%R). { apply (Rmult_le_reg_r h); [lra|]. unfold Rdiv. rewrite Rmult_assoc, Rinv_l; lra. }
  assert (Einv : (h / md = / (md / h))%R) by (field; lra).
  assert (Etv : forall t, (0 <= t <= M)%R -> target_velocity md h M t = ((t / M) * (h / md))%R).
  { intros t Ht. assert (t / M <= 1)%R by (apply (Rmult_le_reg_r M); [lra|]; unfold Rdiv; rewrite Rmult_assoc, Rinv_l; lra).
    unfold target_velocity. destruct (Req_EM_T md (-1)); [lra|]. rewrite Einv. destruct (Rlt_dec (t / M) (md / h)); [reflexivity|].
    assert (E1 : (t / M = 1)%R) by lra. assert (E2 : (md / h = 1)%R) by lra. rewrite E1, E2. field. }
  exists T, M. split; [exact HS|]. split; [exists iM; auto|]. split.
  { intros i Hi. destruct (Hc i Hi) as [t [c [HT [Ht [Hci [Ho _]]]]]]. exists c, t. rewrite Etv in Ho by auto. auto. }
  split.
  { destruct (Hc iM HiM) as [t [c [HT [Ht [Hci [Ho _]]]]]]. rewrite Etv in Ho by auto. exists iM, c. split; [exact Hci|]. rewrite Ho.
    assert (t = M) by congruence. subst t. f_equal. unfold Rdiv at 1. rewrite Rinv_r by lra. lra. }
  intros i c v Hci Hv. pose proof (getCell_range _ _ _ Hci) as K. destruct Hg as [_ Hlen]. rewrite Hlen in K. destruct (Hc i K) as [t [c' [HT [Ht [Hci' [Ho _]]]]]].
  assert (c' = c) by congruence. subst c'. rewrite Etv in Ho by auto. assert (v = (t / M * (h / md))%R) by congruence. subst v.
  assert (t / M <= 1)%R by (apply (Rmult_le_reg_r M); [lra|]; unfold Rdiv; rewrite Rmult_assoc, Rinv_l; lra).
  assert (0 < / (md / h))%R by (apply Rinv_0_lt_compat; lra). rewrite Einv.
  rewrite <- (Rmult_1_l (/ (md / h))) at 2. apply Rmult_le_compat_r; lra.
Qed.

(** with a smaller one every cell whose time is at least that fraction of the LARGEST time
    of the map gets velocity 1 *)
Theorem C40_small_saturation_is_relative_to_the_map :
  forall dims (g gv : grid XR) md h, velocity_map dims g md gv -> g_leaf g = XFin h -> (0 < md)%R -> (md < h)%R ->
  exists T M, solution dims (obstacle g) (free g) (slow g) (2 * Rmargin) T /\ (exists i, 0 <= i < box_size dims /\ T i = Some M) /\
  forall i, 0 <= i < box_size dims -> exists c v t, T i = Some t /\ getCell gv i = Ok c /\ c_occ c = XFin v /\ (0 <= v <= 1)%R /\
    (v = 1%R <-> (md / h * M <= t)%R).
Proof.
  intros dims g gv md h (T & M & h' & HS & Eh & HM & [iM [HiM ETM]] & Hob & Hg & El & Hc) Eh2 Hm0 Hmd. assert (h' = h) by congruence. subst h'.
  exists T, M. split; [exact HS|]. split; [exists iM; auto|]. intros i Hi. destruct (Hc i Hi) as [t [c [HT [Ht [Hci [Ho _]]]]]]. exists c, (target_velocity md h M t), t.
  split; [exact HT|]. split; [exact Hci|]. split; [exact Ho|].
  assert (Hd : (0 < md / h)%R) by (apply Rdiv_lt_0_compat; lra). assert (Ht0 : (0 <= t / M)%R) by (apply Rle_mult_inv_pos; lra).
  assert (Et : t = (t / M * M)%R) by (field; lra).
  unfold target_velocity. destruct (Req_EM_T md (-1)); [lra|]. destruct (Rlt_dec (t / M) (md / h)) as [Hlt|Hge].
  - assert (Hv : ((t / M) / (md / h) < 1)%R). { apply (Rmult_lt_reg_r (md / h)); [lra|]. unfold Rdiv at 1. rewrite Rmult_assoc, Rinv_l; lra. }
    split; [split; [apply Rle_mult_inv_pos; lra|lra]|]. split; [lra|]. intros Hle. exfalso. rewrite Et in Hle. assert (md / h <= t / M)%R by (apply (Rmult_le_reg_r M); lra). lra.
  - split; [lra|]. split; [|reflexivity]. intros _. rewrite Et. apply Rmult_le_compat_r; lra.
Qed.

(** a map the theorems apply to: 3x3, free except for two opposite corners *)
Definition fm2_case_grid : grid XR := setOccupiedCells (vgrid [3;3] (n1 : XR) (map XFin [0; 1; 1; 1; 1; 1; 1; 1; 0]%R : list XR)) [0; 8].
Lemma fm2_case_cell i c : getCell fm2_case_grid i = Ok c ->
  ((i = 0 \/ i = 8) /\ c_occ c = XFin 0) \/ (1 <= i <= 7 /\ c_occ c = XFin 1).
Proof.
  intros H. pose proof (getCell_range _ _ _ H) as R. cbn in R.
  assert (K : i = 0 \/ i = 1 \/ i = 2 \/ i = 3 \/ i = 4 \/ i = 5 \/ i = 6 \/ i = 7 \/ i = 8) by lia.
  repeat (destruct K as [->|K]; [injection H as <-; cbn; (left + right); split; auto; lia|]). subst. injection H as <-. cbn. left. auto.
Qed.
Lemma occ_0_1 (c : cell XR) : (c_occ c = XFin 0 -> isOccupied c = true) /\ (c_occ c = XFin 1 -> isOccupied c = false).
Proof.
  pose proof Rmargin_pos. split; intros E; rewrite (isOccupied_XR _ _ E); unfold Rltb.
  - destruct (Rlt_dec 0 Rmargin); [reflexivity|lra].
  - destruct (Rlt_dec 1 Rmargin) as [K|]; [|reflexivity]. exfalso. unfold Rmargin in K. lra.
Qed.
Lemma fm2_case_free i : 1 <= i <= 7 -> free fm2_case_grid i.
Proof.
  intros Hi. destruct (getCell_in [3;3] fm2_case_grid i (proj1 (vgrid_clean [3;3] (n1 : XR) (map XFin [0; 1; 1; 1; 1; 1; 1; 1; 0]%R : list XR) eq_refl))) as [c Hc]; [cbn; lia|].
  exists c. split; [exact Hc|]. destruct (fm2_case_cell _ _ Hc) as [[K _]|[_ E]]; [lia|]. apply (proj2 (occ_0_1 c) E).
Qed.
Example C40_case : fm2_map [3;3] fm2_case_grid /\ free fm2_case_grid 2 /\ free fm2_case_grid 6.
Proof.
  split; [|split; apply fm2_case_free; lia]. split; [reflexivity|]. split; [|split; [|cbn; lia]].
  - split; [split; [repeat constructor; lia|cbn; lia]|]. split; [exact (vgrid_clean [3;3] (n1 : XR) (map XFin [0; 1; 1; 1; 1; 1; 1; 1; 0]%R : list XR) eq_refl)|].
    split; [split|split].
    + exists 1%R. split; [reflexivity|lra].
    + intros i c Hc. destruct (fm2_case_cell _ _ Hc) as [[_ ->]|[_ ->]]; eauto.
    + cbn. repeat constructor; cbn; lia.
    + intros i [<-|[<-|[]]]; cbn; lia.
  - intros i. split.
    + intros [<-|[<-|[]]]; eexists; (split; [reflexivity|apply occ_0_1; reflexivity]).
    + intros [c [Hc Ho]]. destruct (fm2_case_cell _ _ Hc) as [[[->| ->] _]|[_ E]]; [left; reflexivity|right; left; reflexivity|].
      rewrite (proj2 (occ_0_1 c) E) in Ho. discriminate.
Qed.

(** Prop_CallsFMM.v - property theorems C91: FMM, FMM*, SFMM and SFMM* objects, with the handle
    table of their heap, survive every sequence of calls in which clear() is not called and a new
    map is only given right at the start or after reset(). *)
From Coq Require Import Permutation.
From Verif Require Import Base BaseFacts Num NumF64 NumLaws Grid GridFacts GridUpd GridMore Spec Obs Examples Eikonal FMMModel HeapRef HeapLaws BagHeap
  Frame SolverModel Lifecycle FMMStruct Term UFMMStruct Safe DaryModel DaryHeap FibModel FibHeap FM2Facts HandleModel Prop_FMM Prop_Solver Prop_Star Prop_Heap Prop_History Prop_Handles Prop_Calls.
Open Scope Z_scope.

(** ** a run that starts from any grid and from the narrow band an earlier run left *)
Section Run.
Context {N : Num}.
Variable L : NumLaws N.
Variable HO : HeapOps N.
Variable BL : BagLaws HO.
Variable dims : list Z.
Hypothesis Hd2 : dims2 dims.
Hypothesis Hlt : 2 * box_size dims <= 4294967296.
Variable cfg : fmm_cfg (N := N).
Hypothesis Hheur : heur_ok dims cfg.
Notation GO := (grid_ok dims).
Notation ing := (ing dims).

(** the cells of the narrow band are stored in the heap; the heap may hold more *)
Record band_ok (g : grid N) (h : heap HO) : Prop := {
  bo_g : GO g;
  bo_wf : bwf BL h;
  bo_rng : forall i, In i (helems HO h) -> ing i;
  bo_nar : forall i, cst g i = Some NARROW -> bval BL h i
}.
Definition FOK (s : fmm_state HO) : Prop := band_ok (fs_g s) (fs_h s).

Lemma same_nar (g g' : grid N) i : (forall c', getCell g' i = Ok c' -> exists c, getCell g i = Ok c /\ c_state c' = c_state c) -> cst g' i = Some NARROW -> cst g i = Some NARROW.
Proof.
  intros K. unfold cst. destruct (getCell g' i) as [c'|]; [|discriminate]. destruct (K c' eq_refl) as [c [-> ->]]. auto.
Qed.
Lemma setv_nar (g g' : grid N) j t i : setArrivalTime g j t = Ok g' -> cst g' i = Some NARROW -> cst g i = Some NARROW.
Proof.
  intros H. apply same_nar. intros c' Hc'. rewrite (updCell_get _ _ _ _ i H) in Hc'. destruct (j =? i); [|eauto].
  destruct (getCell g i) as [c|]; [|discriminate]. injection Hc' as <-. exists c. split; reflexivity.
Qed.
Lemma sets_nar (g g' : grid N) j s i : setState g j s = Ok g' -> cst g' i = Some NARROW -> (i = j /\ s = NARROW) \/ (i <> j /\ cst g i = Some NARROW).
Proof.
  intros H. unfold cst. rewrite (updCell_get _ _ _ _ i H). destruct (Z.eqb_spec j i) as [<-|Hne].
  - destruct (getCell g j) as [c|]; [|discriminate]. cbn. intros E. injection E as ->. auto.
  - intros E. right. split; [congruence|exact E].
Qed.
Lemma heur_nar (g : grid N) j : GO g -> ing j -> safe (fmm_heur cfg g j) (fun g' => GO g' /\ forall i, cst g' i = Some NARROW -> cst g i = Some NARROW).
Proof.
  intros Hg Hj. destruct (fmm_heur_spec dims cfg Hheur g j Hg Hj) as [g' [-> [Hg' K]]]. split; [exact Hg'|]. intros i. apply same_nar.
  intros c' Hc'. destruct (K i c' Hc') as [c [A [B _]]]. eauto.
Qed.

Lemma b_init s i : ing i -> FOK s -> safe (fmm_init1 HO cfg s i) FOK.
Proof.
  intros Hi [Hg Hw Hr Hn]. unfold fmm_init1.
  destruct (setArrivalTime (fs_g s) i n0) as [g1|e] eqn:E1; pose proof (s_setv dims (fs_g s) i n0 Hg Hi) as K1; rewrite E1 in K1; cbn [safe bind] in *; [|destruct e; auto].
  apply (safe_bind _ _ _ _ (heur_nar g1 i K1 Hi)). intros g2 [Hg2 N2].
  destruct (bl_push HO BL (key g2) i (fs_h s) Hw) as [W [P [V M]]]. split; cbn [fs_g fs_h].
  - exact Hg2.
  - exact W.
  - intros j Hj. apply (Permutation_in _ P) in Hj. destruct Hj as [<-|Hj]; auto.
  - intros j Hj. apply M, Hn, (setv_nar _ _ _ _ _ E1), N2, Hj.
Qed.

Lemma b_neighbor s j : ing j -> FOK s -> safe (fmm_neighbor HO cfg s j) FOK.
Proof.
  intros Hj HB. pose proof HB as [Hg Hw Hr Hn]. unfold fmm_neighbor.
  apply (safe_bind _ _ _ _ (s_get dims _ _ Hg Hj)). intros c _. destruct (_ || _); [exact HB|].
  apply (safe_bind _ _ _ _ (s_eik L dims Hd2 Hlt _ _ Hg Hj)). intros t _.
  apply (safe_bind _ _ _ _ (heur_nar (fs_g s) j Hg Hj)). intros g1 [Hg1 N1].
  destruct (getCell_in dims g1 j Hg1 Hj) as [c1 Ec1]. rewrite Ec1. cbn [bind]. destruct (fmstate_eqb (c_state c1) NARROW) eqn:En.
  - apply eqb_state in En. destruct (isTimeBetterThan t (c_val c1)).
    + destruct (setArrivalTime g1 j t) as [g2|e] eqn:E2; pose proof (s_setv dims g1 j t Hg1 Hj) as K2; rewrite E2 in K2; cbn [safe bind] in *; [|destruct e; auto].
      assert (V : bval BL (fs_h s) j) by (apply Hn, N1; unfold cst; rewrite Ec1, En; reflexivity).
      destruct (bl_incr HO BL (key g2) j (fs_h s) Hw V) as [h2 [-> [W2 [I2 M2]]]]. split; cbn [fs_g fs_h].
      * exact K2.
      * exact W2.
      * intros i Hi. apply Hr, I2, Hi.
      * intros i Hi. apply M2, Hn, N1, (setv_nar _ _ _ _ _ E2), Hi.
    + split; cbn [fs_g fs_h]; auto.
  - destruct (setState g1 j NARROW) as [g2|e] eqn:E2; pose proof (s_sets dims g1 j NARROW Hg1 Hj) as K2; rewrite E2 in K2; cbn [safe bind] in *; [|destruct e; auto].
    destruct (setArrivalTime g2 j t) as [g3|e] eqn:E3; pose proof (s_setv dims g2 j t K2 Hj) as K3; rewrite E3 in K3; cbn [safe bind] in *; [|destruct e; auto].
    destruct (bl_push HO BL (key g3) j (fs_h s) Hw) as [W [P [V M]]]. split; cbn [fs_g fs_h].
    + exact K3.
    + exact W.
    + intros i Hi. apply (Permutation_in _ P) in Hi. destruct Hi as [<-|Hi]; auto.
    + intros i Hi. apply (setv_nar _ _ _ _ _ E3) in Hi. apply (sets_nar _ _ _ _ _ E2) in Hi. destruct Hi as [[-> _]|[_ Hi]]; [exact V|apply M, Hn, N1, Hi].
Qed.

Lemma b_step s : FOK s -> safe (fmm_step HO cfg s) (fun r => match r with None => True | Some (_, s') => FOK s' end).
Proof.
  intros [Hg Hw Hr Hn]. unfold fmm_step. destruct (hpop HO (key (fs_g s)) (fs_h s)) as [[m h1]|] eqn:Ep; [|exact Logic.I].
  destruct (bl_pop HO BL _ _ _ _ Hw Ep) as [W [P M]].
  assert (Hm : ing m) by (apply Hr, (Permutation_in _ (Permutation_sym P)); left; reflexivity).
  apply (safe_bind _ _ _ _ (s_nbr dims Hd2 Hlt _ _ Hg Hm)). intros ns Hns.
  destruct (setState (fs_g s) m FROZEN) as [g1|e] eqn:E1; pose proof (s_sets dims (fs_g s) m FROZEN Hg Hm) as K1; rewrite E1 in K1; cbn [safe bind] in *; [|destruct e; auto].
  apply (safe_bind _ _ FOK).
  - apply (safe_fold _ FOK ing); [exact Hns|intros s' j Hj; apply b_neighbor, Hj|]. split; cbn [fs_g fs_h].
    + exact K1.
    + exact W.
    + intros i Hi. apply Hr, (Permutation_in _ (Permutation_sym P)). right; exact Hi.
    + intros i Hi. apply (sets_nar _ _ _ _ _ E1) in Hi. destruct Hi as [[_ K]|[Hne Hi]]; [discriminate|]. apply M; [exact Hne|apply Hn, Hi].
  - intros s' Hs'. exact Hs'.
Qed.
Lemma b_loop goal : forall fuel s log, FOK s -> safe (fmm_loop HO fuel cfg goal s log) (fun p => FOK (fst p)).
Proof.
  induction fuel as [|k IH]; intros s log Hs; cbn [fmm_loop]; [exact Logic.I|].
  apply (safe_bind _ _ _ _ (b_step s Hs)). intros [[m s']|] Hs'; [|exact Hs]. destruct (m =? goal); [exact Hs'|apply IH, Hs'].
Qed.
Lemma b_run fuel goal init g h : band_ok g h -> (forall i, In i init -> ing i) -> safe (fmm_run HO fuel cfg goal init g h) (fun p => FOK (fst p)).
Proof.
  intros HB Hi. unfold fmm_run. apply (safe_bind _ _ FOK).
  - apply (safe_fold _ FOK ing); [exact Hi|intros s i Hr; apply b_init, Hr|exact HB].
  - intros s Hs. apply b_loop, Hs.
Qed.
End Run.

(** ** C91 *)
(** a map of a shape the index arithmetic supports, with a truthful clean flag.  With a heuristic
    the map has at least two dimensions, of at most 65536 cells each (the unsigned squares of
    C24). *)
Definition usable {N : Num} (h : HeurStrategy) (dims : list Z) (m : grid N) : Prop :=
  shape_ok dims /\ grid_ok dims m /\ flag_is_true m /\
  (h = NOHEUR \/ ((2 <= length dims)%nat /\ Forall (fun k => k <= 65536) dims)).

(** How the object may be used.  [fresh]: nothing has been computed since the last reset() (or
    ever); [pts]: points of the map in use have been given.
    - setEnvironment only when fresh, and points are given again afterwards; with a heuristic all
      maps have the same dimensions (the table of distances is never computed again, C58);
    - points are cells of the map, the goal may be -1;
    - compute once points are given, as often as desired;
    - reset at any time;
    - clear is not called (it leaves the handle table empty and the object set up, C86). *)
Fixpoint used_well {N : Num} (h : HeurStrategy) (dims : list Z) (fresh pts : bool) (cs : list (call N)) : Prop :=
  match cs with
  | [] => True
  | SetEnvironment m :: r => fresh = true /\ exists dims', usable h dims' m /\ (h = NOHEUR \/ dims' = dims) /\ used_well h dims' true false r
  | SetPoints init goal :: r => good_points dims init goal /\ used_well h dims fresh true r
  | Compute _ :: r => pts = true /\ used_well h dims false pts r
  | Reset :: r => used_well h dims true pts r
  | Clear :: _ => False
  end.

Section C91.
Context {N : Num}.
Variable L : NumLaws N.
Variable HO : HeapOps N.
Variable BL : BagLaws HO.
Variable h : HeurStrategy.
Implicit Types (g m : grid N) (o : fmm_obj HO).

Record finv (dims : list Z) (fresh pts : bool) o (cap : Z) g : Prop := {
  fv_use : shape_ok dims /\ (h = NOHEUR \/ ((2 <= length dims)%nat /\ Forall (fun k => k <= 65536) dims));
  fv_grid : sv_grid (fo_s o) = GSet;
  fv_pts : pts = true -> ready dims (fo_s o);
  fv_band : band_ok HO BL dims g (fo_band o);
  fv_set : sv_setup (fo_s o) = true -> g_clean g = false /\ box_size dims <= cap /\ heur_ok dims (mkCfg (fo_strat o) (fo_dist o) (fo_coord o));
  fv_unset : sv_setup (fo_s o) = false -> fo_band o = hempty HO;
  fv_fresh : fresh = true -> sv_setup (fo_s o) = false;
  fv_str : h = NOHEUR -> fo_strat o = NOHEUR;
  fv_pre : h = NOHEUR \/ (fo_pre o = true -> precomputeDistances (mk_shape dims) = Ok (fo_dist o))
}.

Lemma empty_band dims g : grid_ok dims g -> (forall i c, getCell g i = Ok c -> c_state c = OPEN) -> band_ok HO BL dims g (hempty HO).
Proof.
  intros Hg Ho. destruct (bl_empty HO BL) as [W E]. split; [exact Hg|exact W|rewrite E; intros i []|].
  intros i. unfold cst. destruct (getCell g i) as [c|] eqn:Ec; [|discriminate]. rewrite (Ho i c Ec). discriminate.
Qed.

Lemma f_env dims dims' pts o cap g m : finv dims true pts o cap g -> usable h dims' m -> (h = NOHEUR \/ dims' = dims) ->
  exists o1 g1, fmmt_setEnvironment HO (mkFmmT o cap) (Some m) = Ok (mkFmmT o1 cap, g1) /\ finv dims' true false o1 cap g1.
Proof.
  intros [_ _ _ _ _ A B C D] [Hs [Hg [Hf Hu]]] Hd. specialize (B eq_refl). specialize (A B).
  unfold fmmt_setEnvironment, fmm_setEnvironment, setEnvironment. cbn [ft_o ft_cap bind]. do 2 eexists. split; [reflexivity|].
  unfold fmm_with_solver. split; cbn [fo_s fo_band fo_strat fo_dist fo_pre fo_coord sv_grid sv_setup].
  - split; assumption.
  - reflexivity.
  - discriminate.
  - rewrite A. apply empty_band; [apply clean_grid_ok, Hg|]. intros i c Hc. apply (clean_default m Hf i c Hc).
  - congruence.
  - intros _; exact A.
  - intros _; exact B.
  - exact C.
  - destruct Hd as [Hd | ->]; [left; exact Hd|exact D].
Qed.

Lemma f_pts dims fresh pts o cap g init goal : finv dims fresh pts o cap g -> good_points dims init goal -> finv dims fresh true (fmm_setPoints HO o init goal) cap g.
Proof.
  intros [U G P B S V F C D] Hp. unfold fmm_setPoints, fmm_with_solver. split; cbn [fo_s fo_band fo_strat fo_dist fo_pre fo_coord setInitialAndGoalPoints sv_grid sv_setup]; auto.
  intros _. split; [exact G|]. exists init, goal. auto.
Qed.

Lemma f_reset dims fresh pts o cap g : finv dims fresh pts o cap g ->
  exists o1 g1, fmmt_reset HO (mkFmmT o cap) g = Ok (mkFmmT o1 0, g1) /\ finv dims true pts o1 0 g1.
Proof.
  intros [U G P B S V F C D]. unfold fmmt_reset, fmm_reset, solver_reset. cbn [ft_o]. rewrite G. cbn [bind]. do 2 eexists. split; [reflexivity|].
  split; cbn [fo_s fo_band fo_strat fo_dist fo_pre fo_coord sv_grid sv_setup]; auto; try congruence.
  - intros E. destruct (P E) as [_ K]. split; [reflexivity|exact K].
  - assert (HO' : flag_is_true g \/ g_clean g = true /\ forall i, cst g i <> Some NARROW).
    { destruct (sv_setup (fo_s o)) eqn:Eu; [left; intros K; destruct (S eq_refl) as [K' _]; congruence|]. destruct (g_clean g) eqn:Ec; [|left; congruence].
      right. split; [reflexivity|]. intros i K. apply (bo_nar _ _ _ _ _ B) in K. rewrite (V eq_refl) in K. destruct (bl_empty HO BL) as [W E]. apply (bl_val_in HO BL _ _ W) in K. rewrite E in K. exact K. }
    destruct HO' as [Hf|[Hc Hn]].
    + apply empty_band; [apply clean_grid_ok, (bo_g _ _ _ _ _ B)|]. intros i c Hc. apply (clean_default g Hf i c Hc).
    + unfold clean. rewrite Hc. cbn [negb]. destruct (bl_empty HO BL) as [W E]. split; [exact (bo_g _ _ _ _ _ B)|exact W|rewrite E; intros i []|]. intros i K. contradiction (Hn i K).
Qed.

Lemma star_ready dims g goal : shape_ok dims -> grid_ok dims g -> (2 <= length dims)%nat -> Forall (fun k => k <= 65536) dims -> 0 <= goal < box_size dims ->
  exists gc d, idx2coord (g_sh g) (u32 goal) = Ok gc /\ precomputeDistances (N := N) (mk_shape dims) = Ok d /\ forall s, heur_ok dims (mkCfg s d gc).
Proof.
  intros [H2 Hlt] [Hg _] Hl Hk Hr. pose proof (dims2_proper' dims H2) as Hp. assert (Hlt' : box_size dims < 4294967296) by lia.
  rewrite u32_small by lia. rewrite Hg. destruct (proj1 (idx_coord_bijection dims Hl Hp Hlt') goal Hr) as [gc [E1 [E2 _]]].
  destruct (C24_lookups_succeed N dims gc TIME Hl Hp Hlt' Hk E2) as [d [Ed _]].
  exists gc, d. split; [exact E1|]. split; [exact Ed|]. intros s. destruct (C24_lookups_succeed N dims gc s Hl Hp Hlt' Hk E2) as [d' [Ed' K]].
  assert (d' = d) by congruence. subst d'. exact K.
Qed.

(** setup(): what it establishes *)
Lemma f_setup dims fresh o cap g : finv dims fresh true o cap g -> sv_setup (fo_s o) = false ->
  calm (fmm_setup HO o g) (fun p => finv dims false true (fst p) (box_size dims) (snd p) /\ sv_setup (fo_s (fst p)) = true).
Proof.
  intros [[Hs U] G P B S V F C D] Eu. unfold fmm_setup. pose proof (bo_g _ _ _ _ _ B) as Hg. pose proof (P eq_refl) as HR.
  apply (calm_bind _ _ _ _ (ready_setup dims (fo_s o) g Hs Hg HR)). intros [s1 g1] E. injection E as -> ->.
  destruct HR as [_ [init [goal [Ei [Ek [Hi Hk]]]]]]. unfold goal_of. cbn [sv_goal]. unfold fmm_with_solver, fmm_setHeuristics. cbn [fo_s fo_band fo_strat fo_dist fo_pre fo_coord]. unfold goal_of. cbn [sv_goal]. rewrite Ek. cbn [bind].
  pose proof Hs as [H2 Hlt].
  assert (K : forall d p c strat, (h = NOHEUR -> strat = NOHEUR) -> heur_ok dims (mkCfg strat d c) -> (h = NOHEUR \/ (p = true -> precomputeDistances (mk_shape dims) = Ok d)) ->
    finv dims false true (mkFmm (mkSolver GSet true (sv_init (fo_s o)) (Some (u32 goal))) (fo_band o) strat d p c) (box_size dims) (setClean g false)).
  { intros d p c strat K1 K2 K3. split; cbn [fo_s fo_band fo_strat fo_dist fo_pre fo_coord sv_grid sv_setup]; auto; try congruence.
    - intros _. split; [reflexivity|]. exists init, goal. split; [exact Ei|]. split; [reflexivity|]. split; assumption.
    - destruct B as [B1 B2 B3 B4]. split; auto.
    - intros _. split; [reflexivity|]. split; [lia|exact K2]. }
  assert (ST : fo_strat o <> NOHEUR -> s32 (u32 goal) =? -1 = false -> exists gc d, idx2coord (g_sh (setClean g false)) (u32 goal) = Ok gc /\ precomputeDistances (N := N) (mk_shape dims) = Ok d /\
     (forall s, heur_ok dims (mkCfg s d gc)) /\ (fo_pre o = true -> fo_dist o = d)).
  { intros Ens Eg. assert (U' : h <> NOHEUR) by (intros E; specialize (C E); congruence). destruct U as [U|[UL UK]]; [contradiction|]. destruct D as [D|D]; [contradiction|].
    destruct Hk as [->|Hk]; [discriminate Eg|]. destruct (star_ready dims (setClean g false) goal Hs (setClean_grid_ok _ _ _ Hg) UL UK Hk) as [gc [d [A1 [A2 A3]]]].
    exists gc, d. split; [exact A1|]. split; [exact A2|]. split; [exact A3|]. intros E. specialize (D E). congruence. }
  assert (FIN : forall strat, strat <> NOHEUR -> fo_strat o = strat -> s32 (u32 goal) =? -1 = false ->
    calm (gc <- idx2coord (g_sh (setClean g false)) (u32 goal) ;;
          if fo_pre o then Ok (mkFmm (mkSolver GSet true (sv_init (fo_s o)) (Some (u32 goal))) (fo_band o) strat (fo_dist o) true gc)
          else d <- precomputeDistances (g_sh (setClean g false)) ;; Ok (mkFmm (mkSolver GSet true (sv_init (fo_s o)) (Some (u32 goal))) (fo_band o) strat d true gc))
      (fun o1 => fo_strat o1 = strat /\ finv dims false true o1 (box_size dims) (setClean g false) /\ sv_setup (fo_s o1) = true)).
  { intros strat Hns Es Eg. destruct (ST ltac:(congruence) Eg) as [gc [d [-> [A2 [A3 A4]]]]]. cbn [bind].
    assert (U' : h <> NOHEUR) by (intros E; specialize (C E); congruence).
    destruct (fo_pre o) eqn:Epre; cbn [calm].
    - rewrite (A4 eq_refl). split; [reflexivity|]. split; [|reflexivity]. apply K; [intros E; contradiction|apply A3|right; intros _; exact A2].
    - change (g_sh (setClean g false)) with (g_sh g). rewrite (proj1 Hg), A2. cbn [bind calm]. split; [reflexivity|]. split; [|reflexivity]. apply K; [intros E; contradiction|apply A3|right; intros _; exact A2]. }
  assert (U2 : fo_strat o <> NOHEUR -> h = NOHEUR \/ (fo_pre o = true -> precomputeDistances (mk_shape dims) = Ok (fo_dist o))) by (intros _; exact D).
  destruct (fo_strat o) eqn:Est.
  - cbn [bind fo_strat fo_s fo_band fo_dist fo_pre fo_coord calm fst snd]. split; [|reflexivity]. apply K; auto. left; reflexivity.
  - destruct (s32 (u32 goal) =? -1) eqn:Eg; cbn [negb].
    + cbn [bind fo_strat fo_s fo_band fo_dist fo_pre fo_coord calm fst snd]. split; [|reflexivity]. apply K; [auto|left; reflexivity|exact D].
    + apply (calm_bind _ _ _ _ (FIN TIME ltac:(discriminate) eq_refl eq_refl)). intros o1 [Eo [Ho1 Hs1]]. cbn [bind]. rewrite Eo. split; assumption.
  - destruct (s32 (u32 goal) =? -1) eqn:Eg; cbn [negb].
    + cbn [bind fo_strat fo_s fo_band fo_dist fo_pre fo_coord calm fst snd]. split; [|reflexivity]. apply K; [auto|left; reflexivity|exact D].
    + apply (calm_bind _ _ _ _ (FIN DISTANCE ltac:(discriminate) eq_refl eq_refl)). intros o1 [Eo [Ho1 Hs1]]. cbn [bind]. rewrite Eo. split; assumption.
Qed.

Lemma f_comp dims fresh o cap g fuel : finv dims fresh true o cap g ->
  calm (fmmt_compute HO fuel (mkFmmT o cap) g) (fun p => finv dims false true (ft_o (fst p)) (ft_cap (fst p)) (snd p)).
Proof.
  intros HF. unfold fmmt_compute. cbn [ft_o].
  apply (calm_bind _ _ (fun p => finv dims false true (ft_o (fst p)) (ft_cap (fst p)) (snd p) /\ sv_setup (fo_s (ft_o (fst p))) = true)).
  - destruct (sv_setup (fo_s o)) eqn:Eu.
    + cbn [calm fst snd ft_o ft_cap]. split; [|exact Eu]. destruct HF as [U G P B S V F C D]. split; auto. discriminate.
    + unfold fmmt_setup. cbn [ft_o]. apply (calm_bind _ _ _ _ (f_setup dims fresh o cap g HF Eu)). intros [o1 g1] [H1 H2]. cbn [calm fst snd ft_o ft_cap] in *.
      split; [|exact H2]. pose proof (bo_g _ _ _ _ _ (fv_band _ _ _ _ _ _ H1)) as [Hg _]. pose proof (proj1 (fv_use _ _ _ _ _ _ H1)) as [Hd Hlt].
      unfold gsize. rewrite Hg. rewrite mk_shape_eq by (try apply dims2_proper'; try assumption; lia). exact H1.
  - intros [[o1 cap1] g1] [[U G P B S V F C D] Eu]. cbn [fst snd ft_o ft_cap] in *. destruct (S Eu) as [Ec [Hcap Hh]]. pose proof (P eq_refl) as HR.
    destruct (ready_goal _ _ HR) as [k ->]. cbn [bind]. destruct U as [Hs U]. pose proof Hs as [H2 Hlt]. pose proof (bo_g _ _ _ _ _ B) as Hg.
    rewrite (e_run HO cap1 fuel _ k (sv_init (fo_s o1)) g1 (fo_band o1)) by (unfold ncell; rewrite (proj2 Hg); lia).
    pose proof (b_run L HO BL dims H2 Hlt _ Hh fuel k (sv_init (fo_s o1)) g1 (fo_band o1) B (ready_init _ _ HR)) as K.
    destruct (fmm_run HO fuel _ k (sv_init (fo_s o1)) g1 (fo_band o1)) as [[st lg]|[| |]] eqn:Er; cbn [safe rmap bind calm fst snd] in *; auto.
    cbn [lift gst fs_g fs_h calm fst snd ft_o ft_cap].
    pose proof (fmm_run_frame (fun _ => True) HO fuel _ k _ g1 _ st lg (fun _ _ => Logic.I) Er) as FR.
    split; cbn [fo_s fo_band fo_strat fo_dist fo_pre fo_coord]; auto; try congruence.
    intros _. split; [|auto]. destruct FR as [_ [_ [_ [FR _]]]]. congruence.
Qed.

Theorem C91_survives : forall dims m cs, usable h dims m -> used_well h dims true false cs ->
  perform (fmmt_api HO h) (fmmt_clear HO) (a_new (fmmt_api HO h)) m (SetEnvironment m :: cs) <> Fail UB.
Proof.
  assert (K : forall cs dims fresh pts o cap g, finv dims fresh pts o cap g -> used_well h dims fresh pts cs -> perform (fmmt_api HO h) (fmmt_clear HO) (mkFmmT o cap : a_obj (fmmt_api HO h)) g cs <> Fail UB).
  { induction cs as [|c r IH]; intros dims fresh pts o cap g HI Hok; cbn [perform]; [discriminate|].
    destruct c as [m|init goal|fuel| |]; cbn [exec used_well] in *.
    - destruct Hok as [-> [dims' [H1 [H2 H3]]]]. destruct (f_env dims dims' pts o cap g m HI H1 H2) as [o1 [g1 [E HI1]]]. cbn [fmmt_api a_env]. rewrite E. cbn [bind]. exact (IH dims' _ _ o1 cap g1 HI1 H3).
    - cbn [bind]. exact (IH dims _ _ _ _ _ (f_pts _ _ _ _ _ _ _ _ HI (proj1 Hok)) (proj2 Hok)).
    - destruct Hok as [-> Hok]. pose proof (f_comp dims fresh o cap g fuel HI) as K. cbn [fmmt_api a_comp]. destruct (fmmt_compute HO fuel (mkFmmT o cap) g) as [[[o1 c1] g1]|[| |]]; cbn [calm bind fst snd ft_o ft_cap] in *; try discriminate; [|contradiction].
      exact (IH dims _ _ o1 c1 g1 K Hok).
    - destruct (f_reset dims fresh pts o cap g HI) as [o1 [g1 [E HI1]]]. cbn [fmmt_api a_reset]. rewrite E. cbn [bind]. exact (IH dims _ _ o1 0 g1 HI1 Hok).
    - contradiction. }
  intros dims m cs Hu Hok. cbn [perform exec fmmt_api a_env a_new].
  unfold fmmt_setEnvironment, fmm_setEnvironment, setEnvironment. cbn [fmmt_new ft_o ft_cap fmm_new fo_s bind].
  refine (K _ _ _ _ _ _ _ _ Hok). destruct Hu as [Hs [Hg [Hf Hu]]]. unfold fmm_with_solver, new_solver.
  split; cbn [fo_s fo_band fo_strat fo_dist fo_pre fo_coord sv_grid sv_setup]; auto; try discriminate.
  - apply empty_band; [apply clean_grid_ok, Hg|]. intros i c Hc. apply (clean_default m Hf i c Hc).
  - right; discriminate.
Qed.
End C91.
Print Assumptions C91_survives.

(** in doubles, with the three heaps of the library *)
Definition well_behaved (HO : HeapOps F64) : Prop :=
  forall h dims m cs, usable h dims m -> used_well h dims true false cs ->
  perform (fmmt_api HO h) (fmmt_clear HO) (a_new (fmmt_api HO h)) m (SetEnvironment m :: cs) <> Fail UB.
Theorem C91_library_heaps : well_behaved DaryHeap /\ well_behaved FibHeap /\ well_behaved StdHeap.
Proof.
  split; [|split]; intros h; apply (C91_survives F64_laws); [exact (DaryBag F64_laws)|exact (FibBag F64_laws)|exact StdBag].
Qed.
Print Assumptions C91_library_heaps.

(** *** cases *)
(** FMM* on a 3x3 map with an obstacle: computing again and again, new points while the narrow
    band is not empty, duplicate points, reset, and the same map given again; plain FMM also with
    a smaller map. *)
Definition c91_calls : list (call F64) :=
  [Reset; SetPoints [0] 8; Compute 200; Compute 200; SetPoints [8; 2; 2] 6; Compute 200; SetPoints [7; 0] (-1); Compute 200; Reset; Compute 200; Reset;
   SetEnvironment c83_a; SetPoints [3] 5; Compute 200; SetPoints [1] 0; Compute 200].
Definition c91_more : list (call F64) := c91_calls ++ [Reset; SetEnvironment c83_b; SetPoints [0] 3; Compute 200; Compute 200].
Definition c91_fine (HO : HeapOps F64) h (m : grid F64) (cs : list (call F64)) : bool :=
  match perform (fmmt_api HO h) (fmmt_clear HO) (a_new (fmmt_api HO h)) m (SetEnvironment m :: cs) with Ok _ => true | _ => false end.

Lemma c91_sh n : n = 2 \/ n = 3 -> shape_ok [n; n].
Proof. intros [->| ->]; (split; [repeat (constructor; [lia|]); constructor|cbn; lia]). Qed.
Lemma c91_usable_a h : usable h [3;3] c83_a.
Proof.
  split; [apply c91_sh; auto|]. split; [split; vm_compute; reflexivity|].
  split; [|right; split; [cbn; lia|repeat (constructor; [lia|]); constructor]]. unfold c83_a. apply (vgrid_good [3;3]); [apply c91_sh; auto|reflexivity].
Qed.
Example C91_case :
  (forall h, usable h [3;3] c83_a /\ used_well h [3;3] true false c91_calls) /\ used_well NOHEUR [3;3] true false c91_more /\
  c91_fine DaryHeap TIME c83_a c91_calls = true /\ c91_fine FibHeap DISTANCE c83_a c91_calls = true /\ c91_fine StdHeap TIME c83_a c91_calls = true /\
  c91_fine DaryHeap NOHEUR c83_a c91_more = true /\ c91_fine FibHeap NOHEUR c83_a c91_more = true /\ c91_fine StdHeap NOHEUR c83_a c91_more = true.
Proof.
  assert (GP : forall n init goal, box_size n = 9 \/ box_size n = 4 -> forallb (fun x => (0 <=? x) && (x <? box_size n)) init = true -> (goal =? -1) || ((0 <=? goal) && (goal <? box_size n)) = true -> good_points n init goal).
  { intros n i k _ Hi Hk. split.
    - intros x Hx. rewrite forallb_forall in Hi. apply Hi in Hx. apply andb_true_iff in Hx. destruct Hx as [X Y]. apply Z.leb_le in X. apply Z.ltb_lt in Y. lia.
    - apply orb_true_iff in Hk. destruct Hk as [Hk|Hk]; [left; apply Z.eqb_eq; exact Hk|right]. apply andb_true_iff in Hk. destruct Hk as [X Y]. apply Z.leb_le in X. apply Z.ltb_lt in Y. lia. }
  assert (UB : usable NOHEUR [2;2] c83_b).
  { split; [apply c91_sh; auto|]. split; [split; vm_compute; reflexivity|].
    split; [|left; reflexivity]. unfold c83_b. apply (vgrid_good [2;2]); [apply c91_sh; auto|reflexivity]. }
  split. { intros h. split; [apply c91_usable_a|]. cbn [used_well c91_calls].
    repeat (first [exact Logic.I | split; [first [reflexivity | apply GP; [left; reflexivity|reflexivity|reflexivity]]|]]).
    exists [3;3]. split; [apply c91_usable_a|]. split; [right; reflexivity|].
    repeat (first [exact Logic.I | split; [first [reflexivity | apply GP; [left; reflexivity|reflexivity|reflexivity]]|]]). }
  split. { cbn [used_well c91_more c91_calls app].
    repeat (first [exact Logic.I | split; [first [reflexivity | apply GP; [left; reflexivity|reflexivity|reflexivity]]|]]).
    exists [3;3]. split; [apply c91_usable_a|]. split; [right; reflexivity|].
    repeat (first [exact Logic.I | split; [first [reflexivity | apply GP; [left; reflexivity|reflexivity|reflexivity]]|]]).
    exists [2;2]. split; [exact UB|]. split; [left; reflexivity|].
    repeat (first [exact Logic.I | split; [first [reflexivity | apply GP; [right; reflexivity|reflexivity|reflexivity]]|]]). }
  repeat split; vm_compute; reflexivity.
Qed.

(** What the conditions exclude: clear(), a larger map without reset(), a larger map with a
    heuristic (even after reset()). *)
Example C91_limits :
  c91_fine DaryHeap NOHEUR c83_b [SetPoints [0] 3; Compute 200; Clear; Compute 200] = false /\
  c91_fine DaryHeap NOHEUR c83_b [SetPoints [0] 3; Compute 200; SetEnvironment c83_a; SetPoints [8] 0; Compute 200] = false /\
  c91_fine DaryHeap TIME c83_b [SetPoints [0] 3; Compute 200; Reset; SetEnvironment c83_a; SetPoints [8] 0; Compute 200] = false /\
  c91_fine DaryHeap NOHEUR c83_b [SetPoints [0] 3; Compute 200; Reset; SetEnvironment c83_a; SetPoints [8] 0; Compute 200] = true.
Proof. repeat split; vm_compute; reflexivity. Qed.

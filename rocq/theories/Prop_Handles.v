(** Prop_Handles.v - property theorems C86: the table of handles of the heaps is large enough in
    every history of queries, and is overrun after clear() or after a switch to a larger map
    without reset(). *)
From Coq Require Import Permutation.
From Verif Require Import Base BaseFacts Num NumF64 NumLaws Grid GridFacts GridUpd Spec Obs Examples Eikonal FMMModel HeapLaws HeapRef
  Frame SolverModel Lifecycle FMMStruct DaryModel FibModel FM2Facts HandleModel Prop_FMM Prop_Solver Prop_History.
Open Scope Z_scope.

Section Sim.
Context {N : Num} (HO : HeapOps N) (cap : Z).
Implicit Types (g : grid N) (s : fmm_state HO).
Notation G := (Guard HO cap).

Definition gst g (h : option (heap HO)) : fmm_state G := @mkFst N G g h.
Definition lift s : fmm_state G := gst (fs_g s) (Some (fs_h s)).
Definition ncell g : Z := Z.of_nat (length (g_cells g)).

Lemma slot_in g i c : ncell g <= cap -> getCell g i = Ok c -> has_slot cap i = true.
Proof. intros Hn H. apply getCell_range in H. unfold ncell in Hn. unfold has_slot. apply andb_true_intro. split; [apply Z.leb_le|apply Z.ltb_lt]; lia. Qed.

Lemma heur_len cfg g i g' : fmm_heur cfg g i = Ok g' -> ncell g' = ncell g.
Proof.
  unfold fmm_heur. destruct (fc_strat cfg); intros H.
  - injection H as <-. reflexivity.
  - apply bind_ok in H. destruct H as [d [_ H]]. apply bind_ok in H. destruct H as [c [_ H]]. unfold ncell. f_equal. apply (updCell_fields _ _ _ _ H).
  - apply bind_ok in H. destruct H as [d [_ H]]. unfold ncell. f_equal. apply (updCell_fields _ _ _ _ H).
Qed.
Lemma upd_len g i f g' : updCell g i f = Ok g' -> ncell g' = ncell g.
Proof. intros H. unfold ncell. f_equal. apply (updCell_fields _ _ _ _ H). Qed.
Lemma upd_slot g i f g' : ncell g <= cap -> updCell g i f = Ok g' -> has_slot cap i = true.
Proof. intros Hn H. apply updCell_ok in H. destruct H as [c [Hc _]]. exact (slot_in g i c Hn Hc). Qed.

(** *** a table with a slot for every cell is never left *)
Lemma e_init cfg s i : ncell (fs_g s) <= cap ->
  fmm_init1 G cfg (lift s) i = rmap lift (fmm_init1 HO cfg s i) /\ forall s', fmm_init1 HO cfg s i = Ok s' -> ncell (fs_g s') = ncell (fs_g s).
Proof.
  intros Hn. unfold fmm_init1. cbn [lift gst fs_g fs_h]. destruct (setArrivalTime (fs_g s) i n0) as [g1|] eqn:E1; cbn [bind rmap]; [|split; [reflexivity|discriminate]].
  destruct (fmm_heur cfg g1 i) as [g2|] eqn:E2; cbn [bind rmap]; [|split; [reflexivity|discriminate]]. split.
  - cbn [Guard hpush]. rewrite (upd_slot _ _ _ _ Hn E1). reflexivity.
  - intros s' H. injection H as <-. cbn [fs_g]. rewrite (heur_len _ _ _ _ E2), (upd_len _ _ _ _ E1). reflexivity.
Qed.
Lemma e_neighbor cfg s j : ncell (fs_g s) <= cap ->
  fmm_neighbor G cfg (lift s) j = rmap lift (fmm_neighbor HO cfg s j) /\ forall s', fmm_neighbor HO cfg s j = Ok s' -> ncell (fs_g s') = ncell (fs_g s).
Proof.
  intros Hn. unfold fmm_neighbor. cbn [lift gst fs_g fs_h]. destruct (getCell (fs_g s) j) as [c|] eqn:Ec; cbn [bind rmap]; [|split; [reflexivity|discriminate]].
  destruct (fmstate_eqb (c_state c) FROZEN || isOccupied c); [split; [reflexivity|intros s' H; injection H as <-; reflexivity]|].
  destruct (solveEikonal (fs_g s) j) as [t|]; cbn [bind rmap]; [|split; [reflexivity|discriminate]].
  destruct (fmm_heur cfg (fs_g s) j) as [g1|] eqn:E1; cbn [bind rmap]; [|split; [reflexivity|discriminate]]. pose proof (heur_len _ _ _ _ E1) as L1.
  destruct (getCell g1 j) as [c1|]; cbn [bind rmap]; [|split; [reflexivity|discriminate]]. destruct (fmstate_eqb (c_state c1) NARROW).
  - destruct (isTimeBetterThan t (c_val c1)); [|split; [reflexivity|intros s' H; injection H as <-; exact L1]].
    destruct (setArrivalTime g1 j t) as [g2|] eqn:E2; cbn [bind rmap]; [|split; [reflexivity|discriminate]].
    cbn [Guard hincrease]. rewrite (slot_in _ _ _ Hn Ec). destruct (hincrease HO (key g2) j (fs_h s)); cbn [bind rmap]; [|split; [reflexivity|discriminate]].
    split; [reflexivity|]. intros s' H; injection H as <-. cbn [fs_g]. rewrite (upd_len _ _ _ _ E2). exact L1.
  - destruct (setState g1 j NARROW) as [g2|] eqn:E2; cbn [bind rmap]; [|split; [reflexivity|discriminate]].
    destruct (setArrivalTime g2 j t) as [g3|] eqn:E3; cbn [bind rmap]; [|split; [reflexivity|discriminate]]. split.
    + cbn [Guard hpush]. rewrite (slot_in _ _ _ Hn Ec). reflexivity.
    + intros s' H; injection H as <-. cbn [fs_g]. rewrite (upd_len _ _ _ _ E3), (upd_len _ _ _ _ E2). exact L1.
Qed.
Lemma e_fold {B} (f : fmm_state HO -> B -> res (fmm_state HO)) (f' : fmm_state G -> B -> res (fmm_state G)) :
  (forall s b, ncell (fs_g s) <= cap -> f' (lift s) b = rmap lift (f s b) /\ forall s', f s b = Ok s' -> ncell (fs_g s') = ncell (fs_g s)) ->
  forall l s, ncell (fs_g s) <= cap -> foldM f' l (lift s) = rmap lift (foldM f l s) /\ forall s', foldM f l s = Ok s' -> ncell (fs_g s') = ncell (fs_g s).
Proof.
  intros H l. induction l as [|b l IH]; intros s Hn; cbn [foldM]; [split; [reflexivity|intros s' K; injection K as <-; reflexivity]|].
  destruct (H s b Hn) as [H1 H2]. rewrite H1. destruct (f s b) as [s1|]; cbn [bind rmap]; [|split; [reflexivity|discriminate]].
  pose proof (H2 s1 eq_refl) as E. destruct (IH s1 ltac:(rewrite E; exact Hn)) as [I1 I2]. split; [exact I1|]. intros s' K. rewrite (I2 s' K). exact E.
Qed.
Lemma e_step cfg s : ncell (fs_g s) <= cap ->
  fmm_step G cfg (lift s) = rmap (option_map (fun p => (fst p, lift (snd p)))) (fmm_step HO cfg s) /\
  forall m s', fmm_step HO cfg s = Ok (Some (m, s')) -> ncell (fs_g s') = ncell (fs_g s).
Proof.
  intros Hn. unfold fmm_step. cbn [lift gst fs_g fs_h Guard hpop]. destruct (hpop HO (key (fs_g s)) (fs_h s)) as [[m h1]|]; [|split; [reflexivity|discriminate]].
  destruct (getNeighbors (g_sh (fs_g s)) m) as [ns|]; cbn [bind rmap]; [|split; [reflexivity|discriminate]].
  destruct (setState (fs_g s) m FROZEN) as [g1|] eqn:E1; cbn [bind rmap]; [|split; [reflexivity|discriminate]].
  change (@mkFst N G g1 (Some h1)) with (lift (@mkFst N HO g1 h1)).
  pose proof (upd_len _ _ _ _ E1) as L1.
  destruct (e_fold (fmm_neighbor HO cfg) (fmm_neighbor G cfg) (e_neighbor cfg) ns (@mkFst N HO g1 h1) ltac:(cbn [fs_g]; lia)) as [F1 F2]. rewrite F1.
  destruct (foldM (fmm_neighbor HO cfg) ns (@mkFst N HO g1 h1)) as [s2|]; cbn [bind rmap]; [|split; [reflexivity|discriminate]].
  split; [reflexivity|]. intros m' s' H. injection H as <- <-. rewrite (F2 s2 eq_refl). exact L1.
Qed.
Lemma e_loop cfg goal : forall fuel s log, ncell (fs_g s) <= cap ->
  fmm_loop G fuel cfg goal (lift s) log = rmap (fun p => (lift (fst p), snd p)) (fmm_loop HO fuel cfg goal s log).
Proof.
  induction fuel as [|k IH]; intros s log Hn; cbn [fmm_loop]; [reflexivity|]. destruct (e_step cfg s Hn) as [S1 S2]. rewrite S1.
  destruct (fmm_step HO cfg s) as [[[m s']|]|]; cbn [bind rmap option_map fst snd]; try reflexivity.
  destruct (m =? goal); [reflexivity|]. apply IH. rewrite (S2 m s' eq_refl). exact Hn.
Qed.
Lemma e_run fuel cfg goal init g b : ncell g <= cap ->
  fmm_run G fuel cfg goal init g (Some b) = rmap (fun p => (lift (fst p), snd p)) (fmm_run HO fuel cfg goal init g b).
Proof.
  intros Hn. unfold fmm_run. change (@mkFst N G g (Some b)) with (lift (@mkFst N HO g b)).
  destruct (e_fold (fmm_init1 HO cfg) (fmm_init1 G cfg) (e_init cfg) init (@mkFst N HO g b) Hn) as [F1 F2]. rewrite F1.
  destruct (foldM (fmm_init1 HO cfg) init _) as [s|]; cbn [bind rmap]; [|reflexivity]. apply e_loop. rewrite (F2 s eq_refl). exact Hn.
Qed.

(** *** any table: either the run is that without bounds and no time outside the table is
    written, or the table is overrun *)
Definition kept g g' : Prop := forall j, cap <= j -> getArrivalTime g' j = getArrivalTime g j.
Lemma kept_refl g : kept g g. Proof. intros j _; reflexivity. Qed.
Lemma kept_trans g1 g2 g3 : kept g1 g2 -> kept g2 g3 -> kept g1 g3.
Proof. intros A B j Hj. rewrite (B j Hj). exact (A j Hj). Qed.
Lemma kept_slot g i t g' : has_slot cap i = true -> setArrivalTime g i t = Ok g' -> kept g g'.
Proof.
  intros Hs H j Hj. unfold has_slot in Hs. apply andb_prop in Hs. destruct Hs as [_ Hs]. apply Z.ltb_lt in Hs.
  unfold getArrivalTime. rewrite (updCell_get _ _ _ _ j H). destruct (Z.eqb_spec i j); [lia|reflexivity].
Qed.
Lemma kept_val g i f g' : (forall c, c_val (f c) = c_val c) -> updCell g i f = Ok g' -> kept g g'.
Proof.
  intros Hf H j _. unfold getArrivalTime. rewrite (updCell_get _ _ _ _ j H). destruct (Z.eqb_spec i j); [|reflexivity].
  destruct (getCell g j) as [c|]; [|reflexivity]. cbn [bind]. rewrite Hf. reflexivity.
Qed.
Lemma kept_heur cfg g i g' : fmm_heur cfg g i = Ok g' -> kept g g'.
Proof.
  unfold fmm_heur. destruct (fc_strat cfg); intros H.
  - injection H as <-. apply kept_refl.
  - apply bind_ok in H. destruct H as [d [_ H]]. apply bind_ok in H. destruct H as [c [_ H]]. eapply kept_val; [|exact H]. reflexivity.
  - apply bind_ok in H. destruct H as [d [_ H]]. eapply kept_val; [|exact H]. reflexivity.
Qed.

(** what becomes of a step from grid [g] with the (guarded) heap [h] when the step without
    bounds leads to [s'] *)
Definition becomes g (h : option (heap HO)) (r : res (fmm_state G)) s' : Prop :=
  r = Fail UB \/ r = Ok (gst (fs_g s') None) \/ (h <> None /\ r = Ok (lift s') /\ kept g (fs_g s')).

Lemma w_init cfg s i s' h : fmm_init1 HO cfg s i = Ok s' -> h = Some (fs_h s) \/ h = None -> becomes (fs_g s) h (fmm_init1 G cfg (gst (fs_g s) h) i) s'.
Proof.
  unfold fmm_init1. cbn [gst fs_g fs_h]. destruct (setArrivalTime (fs_g s) i n0) as [g1|] eqn:E1; cbn [bind]; [|discriminate].
  destruct (fmm_heur cfg g1 i) as [g2|] eqn:E2; cbn [bind]; [|discriminate]. intros H Hh. injection H as <-. cbn [fs_g fs_h].
  destruct Hh as [->| ->]; [|right; left; reflexivity]. cbn [Guard hpush]. destruct (has_slot cap i) eqn:Es; [|right; left; reflexivity].
  right; right. split; [discriminate|]. split; [reflexivity|]. exact (kept_trans _ _ _ (kept_slot _ _ _ _ Es E1) (kept_heur _ _ _ _ E2)).
Qed.
Lemma w_neighbor cfg s j s' h : fmm_neighbor HO cfg s j = Ok s' -> h = Some (fs_h s) \/ h = None -> becomes (fs_g s) h (fmm_neighbor G cfg (gst (fs_g s) h) j) s'.
Proof.
  unfold fmm_neighbor. cbn [gst fs_g fs_h]. destruct (getCell (fs_g s) j) as [c|] eqn:Ec; cbn [bind]; [|discriminate].
  destruct (fmstate_eqb (c_state c) FROZEN || isOccupied c).
  { intros H [->| ->]; injection H as <-; [right; right|right; left; reflexivity]. split; [discriminate|]. split; [reflexivity|apply kept_refl]. }
  destruct (solveEikonal (fs_g s) j) as [t|]; cbn [bind]; [|discriminate].
  destruct (fmm_heur cfg (fs_g s) j) as [g1|] eqn:E1; cbn [bind]; [|discriminate]. pose proof (kept_heur _ _ _ _ E1) as K1.
  destruct (getCell g1 j) as [c1|]; cbn [bind]; [|discriminate]. destruct (fmstate_eqb (c_state c1) NARROW).
  - destruct (isTimeBetterThan t (c_val c1)).
    2:{ intros H [->| ->]; injection H as <-; [right; right|right; left; reflexivity]. split; [discriminate|]. split; [reflexivity|exact K1]. }
    destruct (setArrivalTime g1 j t) as [g2|] eqn:E2; cbn [bind]; [|discriminate].
    destruct (hincrease HO (key g2) j (fs_h s)) as [h2|] eqn:Eh; cbn [bind]; [|discriminate]. intros H Hh. injection H as <-. cbn [Guard hincrease].
    destruct Hh as [->| ->]; [|left; reflexivity]. destruct (has_slot cap j) eqn:Es; [|left; reflexivity]. rewrite Eh. cbn [bind].
    right; right. split; [discriminate|]. split; [reflexivity|]. exact (kept_trans _ _ _ K1 (kept_slot _ _ _ _ Es E2)).
  - destruct (setState g1 j NARROW) as [g2|] eqn:E2; cbn [bind]; [|discriminate].
    destruct (setArrivalTime g2 j t) as [g3|] eqn:E3; cbn [bind]; [|discriminate]. intros H Hh. injection H as <-. cbn [Guard hpush].
    destruct Hh as [->| ->]; [|right; left; reflexivity]. destruct (has_slot cap j) eqn:Es; [|right; left; reflexivity].
    right; right. split; [discriminate|]. split; [reflexivity|]. apply (kept_trans _ _ _ K1). eapply kept_trans; [eapply kept_val; [|exact E2]; reflexivity|]. exact (kept_slot _ _ _ _ Es E3).
Qed.
Lemma w_fold {B} (f : fmm_state HO -> B -> res (fmm_state HO)) (f' : fmm_state G -> B -> res (fmm_state G)) :
  (forall s b s' h, f s b = Ok s' -> h = Some (fs_h s) \/ h = None -> becomes (fs_g s) h (f' (gst (fs_g s) h) b) s') ->
  forall l s s' h, foldM f l s = Ok s' -> h = Some (fs_h s) \/ h = None -> becomes (fs_g s) h (foldM f' l (gst (fs_g s) h)) s'.
Proof.
  intros H l. induction l as [|b l IH]; intros s s' h Hf Hh; cbn [foldM] in *.
  - injection Hf as <-. destruct Hh as [->| ->]; [right; right|right; left; reflexivity]. split; [discriminate|]. split; [reflexivity|apply kept_refl].
  - apply bind_ok in Hf. destruct Hf as [s1 [H1 H2]]. destruct (H s b s1 h H1 Hh) as [->|[->|[Hn [-> K]]]]; cbn [bind].
    + left; reflexivity.
    + destruct (IH s1 s' None H2 (or_intror eq_refl)) as [->|[->|[Hn _]]]; [left; reflexivity|right; left; reflexivity|contradiction].
    + destruct (IH s1 s' (Some (fs_h s1)) H2 (or_introl eq_refl)) as [E|[E|[_ [E K2]]]]; unfold lift; rewrite E; [left; reflexivity|right; left; reflexivity|].
      right; right. split; [exact Hn|]. split; [reflexivity|exact (kept_trans _ _ _ K K2)].
Qed.
Definition ends g (r : res (fmm_state G * list Z)) s' log' : Prop :=
  r = Fail UB \/ (exists p, r = Ok p /\ fs_h (fst p) = None) \/ (r = Ok (lift s', log') /\ kept g (fs_g s')).
Lemma w_loop cfg goal : forall fuel s log s' log', fmm_loop HO fuel cfg goal s log = Ok (s', log') -> ends (fs_g s) (fmm_loop G fuel cfg goal (lift s) log) s' log'.
Proof.
  induction fuel as [|k IH]; intros s log s' log'; cbn [fmm_loop]; [discriminate|]. intros H. apply bind_ok in H. destruct H as [r [Hs H]].
  unfold fmm_step in Hs. unfold fmm_step at 1. cbn [lift gst fs_g fs_h Guard hpop]. destruct (hpop HO (key (fs_g s)) (fs_h s)) as [[m h1]|].
  2:{ injection Hs as <-. injection H as <- <-. cbn [bind]. right; right. split; [reflexivity|apply kept_refl]. }
  destruct (getNeighbors (g_sh (fs_g s)) m) as [ns|]; cbn [bind] in *; [|discriminate].
  destruct (setState (fs_g s) m FROZEN) as [g1|] eqn:E1; cbn [bind] in *; [|discriminate].
  apply bind_ok in Hs. destruct Hs as [s1 [Hf Hs]]. injection Hs as <-.
  assert (K1 : kept (fs_g s) g1) by (eapply kept_val; [|exact E1]; reflexivity).
  destruct (w_fold (fmm_neighbor HO cfg) (fmm_neighbor G cfg) (w_neighbor cfg) ns _ _ _ Hf (or_introl eq_refl)) as [E|[E|[_ [E K2]]]];
    cbn [fs_g fs_h] in E; change (gst g1 (Some h1)) with (@mkFst N G g1 (Some h1)) in E; rewrite E; cbn [bind].
  - left; reflexivity.
  - destruct (m =? goal); [right; left; eexists; split; reflexivity|]. destruct k as [|k]; [discriminate|]. right; left. eexists. split; [reflexivity|]. reflexivity.
  - cbn [fs_g] in K2. destruct (m =? goal).
    + injection H as <- <-. right; right. split; [reflexivity|exact (kept_trans _ _ _ K1 K2)].
    + destruct (IH s1 (m :: log) s' log' H) as [E2|[E2|[E2 K3]]]; [left; exact E2|right; left; exact E2|right; right].
      split; [exact E2|exact (kept_trans _ _ _ (kept_trans _ _ _ K1 K2) K3)].
Qed.
Lemma w_run fuel cfg goal init g b s' log' : fmm_run HO fuel cfg goal init g b = Ok (s', log') -> ends g (fmm_run G fuel cfg goal init g (Some b)) s' log'.
Proof.
  unfold fmm_run. intros H. apply bind_ok in H. destruct H as [s1 [H1 H2]].
  destruct (w_fold (fmm_init1 HO cfg) (fmm_init1 G cfg) (w_init cfg) init _ _ _ H1 (or_introl eq_refl)) as [E|[E|[_ [E K]]]];
    cbn [fs_g fs_h] in E; change (gst g (Some b)) with (@mkFst N G g (Some b)) in E; rewrite E; cbn [bind].
  - left; reflexivity.
  - destruct fuel; [discriminate|]. right; left. eexists. split; reflexivity.
  - cbn [fs_g] in K. destruct (w_loop cfg goal fuel s1 [] s' log' H2) as [E2|[E2|[E2 K2]]]; [left; exact E2|right; left; exact E2|right; right].
    split; [exact E2|exact (kept_trans _ _ _ K K2)].
Qed.
End Sim.

(** ** C86 *)
Definition fmmt_api {N : Num} (HO : HeapOps N) (h : HeurStrategy) : api N :=
  mkApi N (fmmt_obj HO) (fmmt_new HO h) (fmmt_setEnvironment HO) (fmmt_setPoints HO) (fmmt_compute HO) (fmmt_reset HO).

Section C86.
Context {N : Num} (HO : HeapOps N).
Implicit Types (g m : grid N) (o : fmm_obj HO).

(** a map of a shape the index arithmetic supports, with all its cells *)
Definition complete_map m : Prop := exists dims, proper dims /\ box_size dims < 4294967296 /\ grid_ok dims m.
Lemma complete_size m : complete_map m -> gsize m = ncell m.
Proof.
  intros [dims [Hp [Hlt [E1 E2]]]]. unfold ncell, gsize. rewrite E1, E2. rewrite mk_shape_eq by assumption. reflexivity.
Qed.
Lemma complete_same m m' : g_sh m' = g_sh m -> length (g_cells m') = length (g_cells m) -> complete_map m -> complete_map m'.
Proof. intros E1 E2 [dims [Hp [Hlt [K1 K2]]]]. exists dims. split; [exact Hp|]. split; [exact Hlt|]. split; congruence. Qed.
Lemma complete_clean m : complete_map m -> complete_map (clean m).
Proof. unfold clean. destruct (negb (g_clean m)); [|auto]. apply complete_same; [reflexivity|]. cbn [g_cells]. apply map_length. Qed.

(** forget the table *)
Definition forget (p : fmmt_obj HO * grid N) : fmm_obj HO * grid N := (ft_o (fst p), snd p).

Lemma setup_fields o g o1 g1 : fmm_setup HO o g = Ok (o1, g1) -> sv_setup (fo_s o1) = true /\ g1 = setClean g false.
Proof.
  intros H. destruct (fmm_setup_cases _ _ _ _ _ H) as [s1 [k [H1 [_ Hc]]]]. destruct (solver_setup_ok _ _ _ _ H1) as [-> [-> _]].
  split; [|reflexivity]. destruct Hc as [[_ ->]|[[_ [_ ->]]|[_ [_ [gc [d [_ [_ ->]]]]]]]]; reflexivity.
Qed.

(** A solver that is not set up, or was set up on a map with at least as many cells, never
    leaves the table: compute() does what it does without bounds. *)
Theorem C86_table_is_large_enough :
  forall fuel o cap g, complete_map g -> sv_setup (fo_s o) = false \/ gsize g <= cap ->
  rmap forget (fmmt_compute HO fuel (mkFmmT o cap) g) = fmm_compute HO fuel o g.
Proof.
  intros fuel o cap g Hg Hcap. pose proof (complete_size g Hg) as Es. unfold fmmt_compute, fmm_compute. cbn [ft_o ft_cap].
  assert (K : forall (o1 : fmm_obj HO) g1 cap1, ncell g1 <= cap1 ->
    rmap forget (k <- goal_of (fo_s o1) ;;
     '(st, _) <- fmm_run (Guard HO cap1) fuel (mkCfg (fo_strat o1) (fo_dist o1) (fo_coord o1)) k (sv_init (fo_s o1)) g1 (Some (fo_band o1)) ;;
     match fs_h st with
     | Some b => Ok (mkFmmT (mkFmm (fo_s o1) b (fo_strat o1) (fo_dist o1) (fo_pre o1) (fo_coord o1)) cap1, fs_g st)
     | None => Fail UB
     end) =
    (k <- goal_of (fo_s o1) ;;
     '(st, _) <- fmm_run HO fuel (mkCfg (fo_strat o1) (fo_dist o1) (fo_coord o1)) k (sv_init (fo_s o1)) g1 (fo_band o1) ;;
     Ok (mkFmm (fo_s o1) (fs_h st) (fo_strat o1) (fo_dist o1) (fo_pre o1) (fo_coord o1), fs_g st))).
  { intros o1 g1 cap1 Hn. destruct (goal_of (fo_s o1)) as [k|]; cbn [bind rmap]; [|reflexivity].
    rewrite (e_run HO cap1 fuel _ k (sv_init (fo_s o1)) g1 (fo_band o1) Hn).
    destruct (fmm_run HO fuel _ k (sv_init (fo_s o1)) g1 (fo_band o1)) as [[st lg]|]; reflexivity. }
  destruct (sv_setup (fo_s o)) eqn:Eu.
  - destruct Hcap as [Hcap|Hcap]; [discriminate|]. cbn [bind]. cbn [ft_o ft_cap]. apply K. lia.
  - unfold fmmt_setup. cbn [ft_o]. destruct (fmm_setup HO o g) as [[o1 g1]|] eqn:E1; cbn [bind rmap]; [|reflexivity].
    destruct (setup_fields _ _ _ _ E1) as [_ ->]. cbn [ft_o ft_cap]. apply K. unfold gsize, ncell in *. cbn [setClean g_sh g_cells]. lia.
Qed.

Lemma compute_complete fuel o g o1 g1 : complete_map g -> fmm_compute HO fuel o g = Ok (o1, g1) -> complete_map g1.
Proof.
  intros Hg H. unfold fmm_compute in H. apply bind_ok in H. destruct H as [[oa ga] [Ha H]].
  assert (Hga : complete_map ga).
  { destruct (sv_setup (fo_s o)); [injection Ha as <- <-; exact Hg|]. destruct (setup_fields _ _ _ _ Ha) as [_ ->]. apply (complete_same g); [reflexivity|reflexivity|exact Hg]. }
  apply bind_ok in H. destruct H as [k [_ H]]. apply bind_ok in H. destruct H as [[st lg] [Hr H]]. injection H as <- <-.
  pose proof (fmm_run_frame (fun _ => True) HO fuel _ k _ ga _ st lg (fun _ _ => Logic.I) Hr) as F.
  destruct F as [F1 [_ [_ [_ [F5 _]]]]]. apply (complete_same ga); assumption.
Qed.

(** A history of queries (each ended by reset()) and switches of the map, starting from a new
    solver: with the table the answers are those without it, and no access leaves it, whatever
    the heap, the strategy, the points, the goals and the sizes of the maps. *)
Theorem C86_histories_stay_in_the_table :
  forall h m rs, all_maps complete_map m rs ->
  rmap forget ('(o0, g0) <- a_env (fmmt_api HO h) (a_new (fmmt_api HO h)) (Some m) ;; serve (fmmt_api HO h) o0 g0 rs) =
  ('(o0, g0) <- a_env (fmm_api HO h) (a_new (fmm_api HO h)) (Some m) ;; serve (fmm_api HO h) o0 g0 rs).
Proof.
  intros h m rs Hall.
  assert (K : forall rs o cap g, sv_setup (fo_s o) = false -> complete_map g -> (forall m', In (NewMap m') rs -> complete_map m') ->
    rmap forget (serve (fmmt_api HO h) (mkFmmT o cap) g rs) = serve (fmm_api HO h) o g rs).
  { clear m rs Hall. induction rs as [|[i k f|m'] r IH]; intros o cap g Hs Hg Hm; cbn [serve].
    - reflexivity.
    - cbn [fmmt_api fmm_api a_comp a_pts a_reset]. unfold fmmt_setPoints. cbn [ft_o ft_cap].
      pose proof (C86_table_is_large_enough f (fmm_setPoints HO o i k) cap g Hg (or_introl Hs)) as E.
      destruct (fmmt_compute HO f (mkFmmT (fmm_setPoints HO o i k) cap) g) as [[[o1 c1] g1]|e]; cbn [rmap] in E; unfold forget in E; cbn [fst snd ft_o] in E; rewrite <- E; cbn [bind]; [|reflexivity].
      unfold fmmt_reset. cbn [ft_o]. destruct (fmm_reset HO o1 g1) as [[o2 g2]|e] eqn:E2; cbn [bind]; [|reflexivity].
      apply IH; [| |intros x Hx; apply Hm; right; exact Hx].
      + unfold fmm_reset, solver_reset in E2. destruct (sv_grid (fo_s o1)); cbn [bind] in E2; try discriminate. injection E2 as <- _. reflexivity.
      + unfold fmm_reset, solver_reset in E2. destruct (sv_grid (fo_s o1)); cbn [bind] in E2; try discriminate. injection E2 as _ <-.
        apply complete_clean. exact (compute_complete f _ g o1 g1 Hg (eq_sym E)).
    - cbn [fmmt_api fmm_api a_env]. cbn. apply IH; [exact Hs|apply complete_clean, Hm; left; reflexivity|intros x Hx; apply Hm; right; exact Hx]. }
  cbn. destruct Hall as [Hm0 Hall]. apply K; [reflexivity|apply complete_clean; exact Hm0|exact Hall].
Qed.

(** A solver that is set up keeps its table.  compute() then either does what it does without
    bounds, and has written the time of no cell beyond the table, or overruns the table. *)
Theorem C86_overrun_or_not :
  forall fuel o cap g o' g', sv_setup (fo_s o) = true -> fmm_compute HO fuel o g = Ok (o', g') ->
  (fmmt_compute HO fuel (mkFmmT o cap) g = Ok (mkFmmT o' cap, g') /\ forall j, cap <= j -> getArrivalTime g' j = getArrivalTime g j) \/
  fmmt_compute HO fuel (mkFmmT o cap) g = Fail UB.
Proof.
  intros fuel o cap g o' g' Hs H. unfold fmm_compute in H. unfold fmmt_compute. cbn [ft_o]. rewrite Hs in *. cbn [bind ft_o ft_cap] in *.
  apply bind_ok in H. destruct H as [k [Hk H]]. rewrite Hk. cbn [bind]. apply bind_ok in H. destruct H as [[st lg] [Hr H]]. injection H as <- <-.
  destruct (w_run HO cap fuel _ k _ g _ st lg Hr) as [->|[[[p lp] [-> Hp]]|[-> K]]]; cbn [bind].
  - right; reflexivity.
  - right. cbn [fst] in Hp. rewrite Hp. reflexivity.
  - left. split; [reflexivity|exact K].
Qed.

(** so that a wave that would give a time to a cell beyond the table overruns it *)
Theorem C86_wave_beyond_the_table :
  forall fuel o cap g o' g' j, sv_setup (fo_s o) = true -> fmm_compute HO fuel o g = Ok (o', g') ->
  cap <= j -> getArrivalTime g' j <> getArrivalTime g j -> fmmt_compute HO fuel (mkFmmT o cap) g = Fail UB.
Proof.
  intros fuel o cap g o' g' j Hs H Hj Hd. destruct (C86_overrun_or_not fuel o cap g o' g' Hs H) as [[_ K]|K]; [|exact K]. exfalso. exact (Hd (K j Hj)).
Qed.

Lemma init_poison cap cfg : fc_strat cfg = NOHEUR -> forall l (st : fmm_state (Guard HO cap)),
  (forall i, In i l -> 0 <= i < ncell (fs_g st)) -> fs_h st = None \/ (exists i, In i l /\ cap <= i) ->
  exists st', foldM (fmm_init1 (Guard HO cap) cfg) l st = Ok st' /\ fs_h st' = None.
Proof.
  intros Hc. induction l as [|i l IH]; intros st Hr Hp; cbn [foldM].
  - exists st. split; [reflexivity|]. destruct Hp as [Hp|[i [[] _]]]. exact Hp.
  - unfold fmm_init1 at 1. destruct (getCell (fs_g st) i) as [c|e] eqn:Ec.
    2:{ exfalso. pose proof (Hr i (or_introl eq_refl)) as K. unfold ncell in K. unfold getCell, vget in Ec. destruct (Z.leb_spec 0 i) as [L|L]; [|lia].
        destruct (nth_error (g_cells (fs_g st)) (Z.to_nat i)) eqn:En; [discriminate|]. apply nth_error_None in En. lia. }
    destruct (updCell_in (fs_g st) i c (fun c => with_val c n0) Ec) as [g1 E1]. change (setArrivalTime (fs_g st) i n0 = Ok g1) in E1. rewrite E1. cbn [bind].
    unfold fmm_heur. rewrite Hc. cbn [bind]. apply IH; cbn [fs_g fs_h].
    + intros j Hj. rewrite (upd_len _ _ _ _ E1). apply Hr. right; exact Hj.
    + cbn [Guard hpush]. destruct (fs_h st) as [b|]; [|left; reflexivity]. destruct Hp as [Hp|[j [[<-|Hj] Hcj]]]; [discriminate| |right; eauto].
      left. unfold has_slot. destruct (Z.ltb_spec i cap); [lia|]. rewrite andb_false_r. reflexivity.
Qed.

(** An initial point beyond the table overruns it. *)
Lemma overrun_at_start : forall fuel o cap g k, sv_setup (fo_s o) = true -> fo_strat o = NOHEUR -> sv_goal (fo_s o) = Some k ->
  (forall i, In i (sv_init (fo_s o)) -> 0 <= i < ncell g) -> (exists i, In i (sv_init (fo_s o)) /\ cap <= i) ->
  fmmt_compute HO (S fuel) (mkFmmT o cap) g = Fail UB.
Proof.
  intros fuel o cap g k Hs Hc Hk Hr Hp. unfold fmmt_compute. cbn [ft_o]. rewrite Hs. cbn [bind ft_o ft_cap]. unfold goal_of. rewrite Hk. cbn [bind]. unfold fmm_run.
  destruct (init_poison cap (mkCfg (fo_strat o) (fo_dist o) (fo_coord o)) Hc (sv_init (fo_s o)) (gst HO cap g (Some (fo_band o))) Hr (or_intror Hp)) as [st [E Eh]].
  change (@mkFst N (Guard HO cap) g (Some (fo_band o))) with (gst HO cap g (Some (fo_band o))). rewrite E. cbn [bind fmm_loop]. unfold fmm_step. rewrite Eh. cbn [Guard hpop bind]. rewrite Eh. reflexivity.
Qed.

(** After a run without heuristics, clear() and new points, compute() always overruns the
    table: clear() has left it without slots and the solver set up. *)
Theorem C86_clear_then_compute_overruns :
  forall fuel fuel2 (o o1 : fmmt_obj HO) g g1 i more goal, complete_map g ->
  fmmt_compute HO fuel o g = Ok (o1, g1) -> fo_strat (ft_o o) = NOHEUR ->
  (forall x, In x (i :: more) -> 0 <= x < gsize g) ->
  fmmt_compute HO (S fuel2) (fmmt_setPoints HO (fmmt_clear HO o1) (i :: more) goal) g1 = Fail UB.
Proof.
  intros fuel fuel2 [o cap] o1 g g1 i more goal Hg H Hst Hin. unfold fmmt_compute in H. cbn [ft_o] in *. apply bind_ok in H. destruct H as [[oa ga] [Ha H]].
  assert (Q : sv_setup (fo_s (ft_o oa)) = true /\ fo_strat (ft_o oa) = NOHEUR /\ g_cells ga = g_cells g).
  { destruct (sv_setup (fo_s o)) eqn:Eu; [injection Ha as <- <-; auto|]. unfold fmmt_setup in Ha. cbn [ft_o] in Ha. apply bind_ok in Ha. destruct Ha as [[ob gb] [Hb Ha]]. injection Ha as <- <-. cbn [ft_o].
    destruct (setup_fields _ _ _ _ Hb) as [Q1 ->]. split; [exact Q1|]. split; [|reflexivity].
    destruct (fmm_setup_cases _ _ _ _ _ Hb) as [s1 [k [_ [_ Hc]]]]. destruct Hc as [[_ ->]|[[_ [_ ->]]|[K _]]]; [reflexivity|reflexivity|contradiction]. }
  destruct Q as [Q1 [Q2 Q3]]. apply bind_ok in H. destruct H as [k [_ H]]. apply bind_ok in H. destruct H as [[st lg] [Hr H]]. destruct (fs_h st) as [b|]; [|discriminate]. injection H as <- <-.
  unfold fmmt_setPoints, fmmt_clear, fmm_setPoints, fmm_clear, fmm_with_solver, setInitialAndGoalPoints. cbn [ft_o ft_cap fo_s fo_band fo_strat fo_dist fo_pre fo_coord].
  apply (overrun_at_start fuel2 _ 0 _ (u32 goal)); cbn [fo_s fo_strat sv_setup sv_goal sv_init]; [exact Q1|exact Q2|reflexivity| |].
  - pose proof (fmm_run_frame (fun _ => True) _ fuel _ k _ ga _ st lg (fun _ _ => Logic.I) Hr) as F. destruct F as [_ [_ [_ [_ [F5 _]]]]]. unfold ncell. rewrite F5, Q3. intros x Hx.
    pose proof (complete_size g Hg) as E. unfold ncell in E. specialize (Hin x Hx). lia.
  - exists i. split; [left; reflexivity|]. specialize (Hin i (or_introl eq_refl)). lia.
Qed.

(** After a run on a map, setEnvironment on a larger map (without reset()) and an initial point
    the first map does not have, compute() overruns the table. *)
Theorem C86_larger_map_overruns :
  forall fuel fuel2 (o o1 o2 : fmmt_obj HO) g g1 m g2 init goal i, complete_map g -> complete_map m ->
  sv_setup (fo_s (ft_o o)) = false -> fo_strat (ft_o o) = NOHEUR ->
  fmmt_compute HO fuel o g = Ok (o1, g1) -> fmmt_setEnvironment HO o1 (Some m) = Ok (o2, g2) ->
  (forall x, In x init -> 0 <= x < gsize m) -> In i init -> gsize g <= i ->
  fmmt_compute HO (S fuel2) (fmmt_setPoints HO o2 init goal) g2 = Fail UB.
Proof.
  intros fuel fuel2 [o cap] o1 o2 g g1 m g2 init goal i Hg Hm Hu Hst H He Hin Hi Hgi. unfold fmmt_compute in H. cbn [ft_o] in *. rewrite Hu in H.
  unfold fmmt_setup in H. cbn [ft_o] in H. apply bind_ok in H. destruct H as [[oa ga] [Ha H]]. apply bind_ok in Ha. destruct Ha as [[ob gb] [Hb Ha]]. injection Ha as <- <-. cbn [ft_o ft_cap] in H.
  destruct (setup_fields _ _ _ _ Hb) as [Q1 ->].
  assert (Q2 : fo_strat ob = NOHEUR) by (destruct (fmm_setup_cases _ _ _ _ _ Hb) as [s1 [k [_ [_ Hc]]]]; destruct Hc as [[_ ->]|[[_ [_ ->]]|[K _]]]; [reflexivity|reflexivity|contradiction]).
  apply bind_ok in H. destruct H as [k [_ H]]. apply bind_ok in H. destruct H as [[st lg] [Hr H]]. destruct (fs_h st) as [b|]; [|discriminate]. injection H as <- <-.
  unfold fmmt_setEnvironment, fmm_setEnvironment, setEnvironment, fmm_with_solver in He. cbn [ft_o ft_cap fo_s fo_band fo_strat fo_dist fo_pre fo_coord bind] in He. injection He as <- <-.
  unfold fmmt_setPoints, fmm_setPoints, fmm_with_solver, setInitialAndGoalPoints. cbn [ft_o ft_cap fo_s fo_band fo_strat fo_dist fo_pre fo_coord sv_setup sv_grid].
  apply (overrun_at_start fuel2 _ (gsize g) _ (u32 goal)); cbn [fo_s fo_strat sv_setup sv_goal sv_init]; [exact Q1|exact Q2|reflexivity| |exists i; auto].
  intros x Hx. rewrite <- (complete_size (clean m) (complete_clean m Hm)). unfold gsize, clean. destruct (negb (g_clean m)); exact (Hin x Hx).
Qed.
End C86.
Print Assumptions C86_histories_stay_in_the_table.
Print Assumptions C86_clear_then_compute_overruns.

(** a case in doubles with the binary heap: 2x2 map, then, without reset(), a 3x3 map and the
    wave from cell 0: cell 8 has no slot.  With reset() in between all is well. *)
Definition c86_run (with_reset : bool) : bool :=
  let HO := (DaryHeap : HeapOps F64) in
  match ('(o, g) <- fmmt_setEnvironment HO (fmmt_new HO NOHEUR) (Some (new_grid [2;2] n1)) ;;
         '(o1, g1) <- fmmt_compute HO 20 (fmmt_setPoints HO o [0] (-1)) g ;;
         '(o2, g2) <- (if with_reset then fmmt_reset HO o1 g1 else Ok (o1, g1)) ;;
         '(o3, g3) <- fmmt_setEnvironment HO o2 (Some (new_grid [3;3] n1)) ;;
         fmmt_compute HO 20 (fmmt_setPoints HO o3 [0] (-1)) g3) with
  | Ok _ => true | Fail UB => false | Fail _ => true end.
Example C86_case : c86_run true = true /\ c86_run false = false.
Proof. vm_compute. split; reflexivity. Qed.
Example C86_case_complete : complete_map (new_grid [3;3] n1 : grid F64) /\ gsize (new_grid [2;2] n1 : grid F64) = 4.
Proof. split; [|reflexivity]. exists [3;3]. split; [repeat (constructor; [lia|]); constructor|]. split; [cbn; lia|]. split; reflexivity. Qed.

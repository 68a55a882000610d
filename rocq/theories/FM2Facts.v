(** FM2Facts.v - lemmas for FM2: running FMM from any empty heap, connectivity of a box, the
    largest value of a map. *)
From Coq Require Import Reals Lra Permutation.
From Verif Require Import Base BaseFacts Num NumXR NumLaws Grid GridFacts GridUpd XGrid Spec Obs Eikonal FMMModel HeapLaws.
Open Scope Z_scope.

(** ** FMM from another empty heap *)
Section Sim.
Context {N : Num} (HO : HeapOps N) (h0 : heap HO).

Definition with_empty : HeapOps N :=
  {| heap := heap HO; hempty := h0; hpush := hpush HO; hincrease := hincrease HO; hpop := hpop HO; helems := helems HO |}.

Lemma with_empty_laws (HL : HeapLaws HO) k : hwf HL h0 -> helems HO h0 = [] -> hord HL k h0 -> HeapLaws with_empty.
Proof.
  intros Hw He Ho.
  refine {| hwf := (hwf HL : heap with_empty -> Prop); hord := (hord HL : _ -> heap with_empty -> Prop) |}; cbn [with_empty heap hempty hpush hincrease hpop helems].
  - split; auto.
  - apply (hl_push HO HL).
  - apply (hl_incr HO HL).
  - apply (hl_pop_none HO HL).
  - apply (hl_pop HO HL).
  - intros k'. apply (hl_ord_ext HO HL k k' h0 Hw Ho). rewrite He. intros x [].
  - apply (hl_ord_ext HO HL).
  - apply (hl_ord_push HO HL).
  - apply (hl_ord_incr HO HL).
  - apply (hl_ord_pop HO HL).
Qed.

Definition conv (s : fmm_state with_empty) : fmm_state HO := @mkFst N HO (fs_g s) (fs_h s).
Definition unconv (s : fmm_state HO) : fmm_state with_empty := @mkFst N with_empty (fs_g s) (fs_h s).
Lemma conv_un s : conv (unconv s) = s. Proof. destruct s; reflexivity. Qed.
Lemma un_conv s : unconv (conv s) = s. Proof. destruct s; reflexivity. Qed.
Definition rmap {A B} (f : A -> B) (r : res A) : res B := match r with Ok a => Ok (f a) | Fail e => Fail e end.

Lemma sim_init cfg s i : fmm_init1 HO cfg (conv s) i = rmap conv (fmm_init1 with_empty cfg s i).
Proof.
  unfold fmm_init1. cbn [conv fs_g fs_h]. destruct (setArrivalTime (fs_g s) i n0) as [g1|]; cbn [bind rmap]; [|reflexivity].
  destruct (fmm_heur cfg g1 i) as [g2|]; reflexivity.
Qed.
Lemma sim_neighbor cfg s j : fmm_neighbor HO cfg (conv s) j = rmap conv (fmm_neighbor with_empty cfg s j).
Proof.
  unfold fmm_neighbor. cbn [conv fs_g fs_h]. destruct (getCell (fs_g s) j) as [c|]; cbn [bind rmap]; [|reflexivity].
  destruct (fmstate_eqb (c_state c) FROZEN || isOccupied c); [reflexivity|].
  destruct (solveEikonal (fs_g s) j) as [t|]; cbn [bind rmap]; [|reflexivity]. destruct (fmm_heur cfg (fs_g s) j) as [g1|]; cbn [bind rmap]; [|reflexivity].
  destruct (getCell g1 j) as [c1|]; cbn [bind rmap]; [|reflexivity]. destruct (fmstate_eqb (c_state c1) NARROW).
  - destruct (isTimeBetterThan t (c_val c1)); [|reflexivity]. destruct (setArrivalTime g1 j t) as [g2|]; cbn [bind rmap]; [|reflexivity].
    change (hincrease with_empty (key g2) j (fs_h s)) with (hincrease HO (key g2) j (fs_h s)). destruct (hincrease HO (key g2) j (fs_h s)); reflexivity.
  - destruct (setState g1 j NARROW) as [g2|]; cbn [bind rmap]; [|reflexivity]. destruct (setArrivalTime g2 j t); reflexivity.
Qed.
Lemma sim_fold {B} (f : fmm_state HO -> B -> res (fmm_state HO)) (f' : fmm_state with_empty -> B -> res (fmm_state with_empty)) :
  (forall s b, f (conv s) b = rmap conv (f' s b)) -> forall l s, foldM f l (conv s) = rmap conv (foldM f' l s).
Proof.
  intros H l. induction l as [|b l IH]; intros s; cbn [foldM]; [reflexivity|]. rewrite H. destruct (f' s b) as [s'|]; cbn [bind rmap]; auto.
Qed.
Lemma sim_step cfg s : fmm_step HO cfg (conv s) = rmap (option_map (fun p => (fst p, conv (snd p)))) (fmm_step with_empty cfg s).
Proof.
  unfold fmm_step. cbn [conv fs_g fs_h]. change (hpop with_empty (key (fs_g s)) (fs_h s)) with (hpop HO (key (fs_g s)) (fs_h s)).
  destruct (hpop HO (key (fs_g s)) (fs_h s)) as [[m h1]|]; [|reflexivity].
  destruct (getNeighbors (g_sh (fs_g s)) m) as [ns|]; cbn [bind rmap]; [|reflexivity].
  destruct (setState (fs_g s) m FROZEN) as [g1|]; cbn [bind rmap]; [|reflexivity].
  change (@mkFst N HO g1 h1) with (conv (@mkFst N with_empty g1 h1)).
  rewrite (sim_fold (fmm_neighbor HO cfg) (fmm_neighbor with_empty cfg) (sim_neighbor cfg)).
  destruct (foldM (fmm_neighbor with_empty cfg) ns (@mkFst N with_empty g1 h1)); reflexivity.
Qed.
Lemma sim_loop cfg goal : forall fuel s log,
  fmm_loop HO fuel cfg goal (conv s) log = rmap (fun p => (conv (fst p), snd p)) (fmm_loop with_empty fuel cfg goal s log).
Proof.
  induction fuel as [|k IH]; intros s log; cbn [fmm_loop]; [reflexivity|]. rewrite sim_step.
  destruct (fmm_step with_empty cfg s) as [[[m s']|]|]; cbn [bind rmap option_map fst snd]; try reflexivity.
  destruct (m =? goal); [reflexivity|]. apply IH.
Qed.
Lemma sim_run fuel cfg goal init g :
  fmm_run HO fuel cfg goal init g h0 = rmap (fun p => (conv (fst p), snd p)) (fmm_run with_empty fuel cfg goal init g (hempty with_empty)).
Proof.
  unfold fmm_run. change (@mkFst N HO g h0) with (conv (@mkFst N with_empty g (hempty with_empty))).
  rewrite (sim_fold (fmm_init1 HO cfg) (fmm_init1 with_empty cfg) (sim_init cfg)).
  destruct (foldM (fmm_init1 with_empty cfg) init _) as [s|]; cbn [bind rmap]; [|reflexivity]. apply sim_loop.
Qed.
End Sim.

(** without a strategy the distance table is not looked at *)
Lemma fmm_run_noheur {N : Num} (HO : HeapOps N) cfg : fc_strat cfg = NOHEUR ->
  forall fuel goal init g h, fmm_run HO fuel cfg goal init g h = fmm_run HO fuel no_heur goal init g h.
Proof.
  intros Hs fuel goal init g h.
  assert (E1 : forall st i, fmm_init1 HO cfg st i = fmm_init1 HO no_heur st i) by (intros; unfold fmm_init1, fmm_heur; rewrite Hs; reflexivity).
  assert (E2 : forall st i, fmm_neighbor HO cfg st i = fmm_neighbor HO no_heur st i) by (intros; unfold fmm_neighbor, fmm_heur; rewrite Hs; reflexivity).
  assert (FE : forall A B (f h : A -> B -> res A) l a, (forall a b, f a b = h a b) -> foldM f l a = foldM h l a).
  { intros A B f h' l. induction l as [|b l IH]; intros a Hf; cbn; [reflexivity|]. rewrite Hf. destruct (h' a b); cbn; auto. }
  unfold fmm_run. rewrite (FE _ _ _ _ init _ E1). destruct (foldM (fmm_init1 HO no_heur) init (mkFst g h)) as [st|e]; cbn [bind]; [|reflexivity].
  generalize (@nil Z) as log. revert st. induction fuel as [|fu IH]; intros st log; cbn [fmm_loop]; [reflexivity|].
  assert (ES : fmm_step HO cfg st = fmm_step HO no_heur st).
  { unfold fmm_step. destruct (hpop HO (key (fs_g st)) (fs_h st)) as [[m h1]|]; [|reflexivity]. destruct (getNeighbors (g_sh (fs_g st)) m); cbn [bind]; [|reflexivity].
    destruct (setState (fs_g st) m FROZEN); cbn [bind]; [|reflexivity]. rewrite (FE _ _ _ _ _ _ E2). reflexivity. }
  rewrite ES. destruct (fmm_step HO no_heur st) as [[[m st1]|]|]; cbn [bind]; try reflexivity. destruct (m =? goal); [reflexivity|]. apply IH.
Qed.

(** ** a box is connected *)
Fixpoint l1 (cs ds : list Z) : Z := match cs, ds with c :: cr, d :: dr => Z.abs (c - d) + l1 cr dr | _, _ => 0 end.
Lemma l1_nonneg cs : forall ds, 0 <= l1 cs ds.
Proof. induction cs as [|c cs IH]; intros [|d ds]; cbn [l1]; try lia. specialize (IH ds). lia. Qed.

Lemma l1_step dims cs ds : in_box dims cs -> in_box dims ds -> cs <> ds ->
  exists es, in_box dims es /\ unit_step es cs /\ l1 es ds = l1 cs ds - 1.
Proof.
  intros H. revert ds. induction H as [|k c dims cs Hc Hb IH]; intros ds Hd Hne.
  - inversion Hd; subst. contradiction.
  - inversion Hd as [|? d ? dr Hdk Hdr]; subst. destruct (Z.eq_dec c d) as [->|Hcd].
    + destruct (IH dr Hdr) as [es [E1 [E2 E3]]]; [congruence|]. exists (d :: es). split; [constructor; auto|]. split; [apply us_later; exact E2|]. cbn [l1]. lia.
    + exists ((if c <? d then c + 1 else c - 1) :: cs). destruct (Z.ltb_spec c d).
      * split; [constructor; [lia|exact Hb]|]. split; [apply us_here; lia|]. cbn [l1]. lia.
      * split; [constructor; [lia|exact Hb]|]. split; [apply us_here; lia|]. cbn [l1]. lia.
Qed.

(** every cell of a box is an obstacle or connected to one through free cells, if there is an
    obstacle at all *)
Lemma obstacles_reach_all dims (src fr : Z -> Prop) k :
  0 <= k < box_size dims -> proper dims -> src k -> (forall i, 0 <= i < box_size dims -> src i \/ fr i) ->
  forall i, 0 <= i < box_size dims -> reachable dims src fr i.
Proof.
  intros Hk Hp Hsk Hall.
  assert (K : forall n cs, in_box dims cs -> l1 cs (coords_of dims k) = Z.of_nat n -> reachable dims src fr (cell_number dims cs)).
  { pose proof (coords_of_in_box dims k Hp Hk) as Hkb. pose proof (cell_number_coords_of dims k Hp Hk) as Ekn.
    induction n as [|n IH]; intros cs Hb Hn.
    - destruct (list_eq_dec Z.eq_dec cs (coords_of dims k)) as [->|Hne].
      + rewrite Ekn. apply reach_src. exact Hsk.
      + destruct (l1_step _ _ _ Hb Hkb Hne) as [es [_ [_ E]]]. pose proof (l1_nonneg es (coords_of dims k)). lia.
    - destruct (list_eq_dec Z.eq_dec cs (coords_of dims k)) as [->|Hne].
      + rewrite Ekn. apply reach_src. exact Hsk.
      + destruct (l1_step _ _ _ Hb Hkb Hne) as [es [Ee [Eu E]]]. specialize (IH es Ee ltac:(lia)).
        destruct (Hall _ (cell_number_range _ _ Hb)) as [Hs|Hf]; [apply reach_src; exact Hs|].
        apply (reach_step dims src fr (cell_number dims es)); [exact IH| |exact Hf]. exists es, cs. auto. }
  intros i Hi. rewrite <- (cell_number_coords_of dims i Hp Hi). pose proof (l1_nonneg (coords_of dims i) (coords_of dims k)) as Hn.
  apply (K (Z.to_nat (l1 (coords_of dims i) (coords_of dims k)))); [apply coords_of_in_box; auto|lia].
Qed.

(** ** the largest value *)
Lemma maxValue_XR (g : grid XR) : (forall c, In c (g_cells g) -> exists r, c_val c = XFin r /\ (0 <= r)%R) ->
  exists M, getMaxValue g = XFin M /\ (0 <= M)%R /\ (forall c r, In c (g_cells g) -> c_val c = XFin r -> (r <= M)%R) /\
    (M = 0%R \/ exists c, In c (g_cells g) /\ c_val c = XFin M).
Proof.
  unfold getMaxValue. intros H.
  assert (K : forall (l : list (cell XR)) (m : R), (forall c, In c l -> exists r, c_val c = XFin r /\ (0 <= r)%R) -> (0 <= m)%R ->
    exists M, fold_left (fun m c => if negb (nisinf (c_val c)) && nltb m (c_val c) then c_val c else m) l (XFin m : XR) = XFin M /\ (m <= M)%R /\
      (forall c r, In c l -> c_val c = XFin r -> (r <= M)%R) /\ (M = m \/ exists c, In c l /\ c_val c = XFin M)).
  { induction l as [|c l IH]; intros m Hl Hm; cbn [fold_left].
    - exists m. split; [reflexivity|]. split; [lra|]. split; [intros c r []|auto].
    - destruct (Hl c (or_introl eq_refl)) as [r [Er Hr]]. rewrite Er.
      assert (EC : (negb (nisinf (XFin r : XR)) && nltb (XFin m : XR) (XFin r)) = Rltb m r) by reflexivity. rewrite EC. unfold Rltb.
      assert (Hl' : forall c, In c l -> exists r, c_val c = XFin r /\ (0 <= r)%R) by (intros c' Hc'; apply Hl; right; exact Hc').
      destruct (Rlt_dec m r) as [Hlt|Hge].
      + destruct (IH r Hl' Hr) as [M [E [A [B C]]]]. exists M. split; [exact E|]. split; [lra|]. split.
        * intros c' r' [<-|Hc'] E'; [|exact (B c' r' Hc' E')]. rewrite Er in E'. injection E' as <-. exact A.
        * right. destruct C as [->|[c' [C1 C2]]]; [exists c; split; [left; reflexivity|exact Er]|exists c'; split; [right; exact C1|exact C2]].
      + destruct (IH m Hl' Hm) as [M [E [A [B C]]]]. exists M. split; [exact E|]. split; [lra|]. split.
        * intros c' r' [<-|Hc'] E'; [|exact (B c' r' Hc' E')]. rewrite Er in E'. injection E' as <-. lra.
        * destruct C as [->|[c' [C1 C2]]]; [left; reflexivity|right; exists c'; split; [right; exact C1|exact C2]]. }
  destruct (K (g_cells g) 0%R H ltac:(lra)) as [M [E [A [B C]]]]. exists M.
  split; [exact E|]. auto.
Qed.

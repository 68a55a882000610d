(** Safe.v - FSM, LSM, DDQM, FIM and GMM never leave the grid, whatever the grid contains (C82):
    proofs.  A run either returns or is still running. *)
From Verif Require Import Base BaseFacts Num NumLaws Grid GridFacts GridUpd GridMore Spec Obs Eikonal FMMModel SweepModel QueueModel
  SweepOrder Frame FMMStruct Relax Term.
Open Scope Z_scope.

Definition safe {A} (r : res A) (P : A -> Prop) : Prop :=
  match r with Ok a => P a | Fail OutOfFuel => True | Fail _ => False end.

Lemma safe_ok {A} (a : A) (P : A -> Prop) : P a -> safe (Ok a) P.
Proof. intros H. exact H. Qed.

Lemma safe_bind {A B} (x : res A) (k : A -> res B) P Q : safe x P -> (forall a, P a -> safe (k a) Q) -> safe (bind x k) Q.
Proof. destruct x as [a|[| |]]; cbn; auto. Qed.

Lemma safe_imp {A} (x : res A) (P Q : A -> Prop) : safe x P -> (forall a, P a -> Q a) -> safe x Q.
Proof. destruct x as [a|[| |]]; cbn; auto. Qed.

Lemma safe_fold {A S} (f : S -> A -> res S) (P : S -> Prop) (R : A -> Prop) l :
  (forall x, In x l -> R x) -> (forall s x, R x -> P s -> safe (f s x) P) -> forall s, P s -> safe (foldM f l s) P.
Proof.
  induction l as [|x r IH]; intros HR Hf s Hs; cbn; [exact Hs|].
  apply (safe_bind _ _ P); [apply Hf; [apply HR; left; reflexivity|exact Hs]|]. intros a Ha. apply IH; [|exact Hf|exact Ha].
  intros y Hy. apply HR. right; exact Hy.
Qed.

Section Safe.
Context {N : Num}.
Variable L : NumLaws N.
Variable dims : list Z.
Hypothesis Hd2 : dims2 dims.
Hypothesis Hlt : 2 * box_size dims <= 4294967296.
Let Hp : proper dims := dims2_proper' dims Hd2.

Definition ing (i : Z) : Prop := 0 <= i < box_size dims.
Notation GO := (grid_ok dims).

Lemma s_get (g : grid N) i : GO g -> ing i -> safe (getCell g i) (fun _ => True).
Proof. intros Hg Hi. destruct (getCell_in dims g i Hg Hi) as [c ->]. exact I. Qed.
Lemma s_time (g : grid N) i : GO g -> ing i -> safe (getArrivalTime g i) (fun _ => True).
Proof. intros Hg Hi. destruct (getArrivalTime_in dims g i Hg Hi) as [c ->]. exact I. Qed.
Lemma s_upd (g : grid N) i f : GO g -> ing i -> safe (updCell g i f) (GO).
Proof.
  intros Hg Hi. destruct (getCell_in dims g i Hg Hi) as [c Hc].
  destruct (updCell g i f) as [g'|e] eqn:E; [exact (updCell_grid_ok _ _ _ _ _ E Hg)|].
  assert (K : updCell g i f = Ok (with_cells g (lset (g_cells g) (Z.to_nat i) (f c)))) by (apply updCell_ok; exists c; auto). congruence.
Qed.
Lemma s_setv (g : grid N) i t : GO g -> ing i -> safe (setArrivalTime g i t) (GO).
Proof. apply s_upd. Qed.
Lemma s_sets (g : grid N) i t : GO g -> ing i -> safe (setState g i t) (GO).
Proof. apply s_upd. Qed.
Lemma s_eik (g : grid N) i : GO g -> ing i -> safe (solveEikonal g i) (fun _ => True).
Proof. intros Hg Hi. destruct (solveEikonal_total L dims g i Hd2 Hlt Hg Hi) as [t ->]. exact I. Qed.
Lemma s_nbr (g : grid N) i : GO g -> ing i -> safe (getNeighbors (g_sh g) i) (fun ns => forall j, In j ns -> ing j).
Proof. intros [-> _] Hi. rewrite (getNeighbors_eq dims i Hp Hlt Hi). intros j Hj. exact (nbrs_range dims i j Hp Hi Hj). Qed.

(** *** FSM, LSM *)
Definition SWok (s : sw_state (N := N)) : Prop := GO (sw_g s).

Lemma s_fsm goal s i : ing i -> SWok s -> safe (fsm_solveForIdx goal s i) SWok.
Proof.
  unfold SWok. intros Hi Hs. unfold fsm_solveForIdx. apply (safe_bind _ _ _ _ (s_time _ _ Hs Hi)). intros p _.
  apply (safe_bind _ _ _ _ (s_eik _ _ Hs Hi)). intros t _.
  destruct (isTimeBetterThan t p).
  - apply (safe_bind _ _ _ _ (s_setv _ _ t Hs Hi)). intros g' Hg'. exact Hg'.
  - destruct (_ && _ && _); exact Hs.
Qed.

Lemma s_lsm goal s i : ing i -> SWok s -> safe (lsm_solveForIdx goal s i) SWok.
Proof.
  unfold SWok. intros Hi Hs. unfold lsm_solveForIdx. apply (safe_bind _ _ _ _ (s_get _ _ Hs Hi)). intros c _.
  destruct (fmstate_eqb (c_state c) OPEN); [|exact Hs].
  apply (safe_bind _ _ _ _ (s_eik _ _ Hs Hi)). intros t _.
  apply (safe_bind _ _ SWok).
  - destruct (isTimeBetterThan t (c_val c)); [|destruct (_ && _ && _); exact Hs].
    apply (safe_bind _ _ _ _ (s_setv _ _ t Hs Hi)). intros g1 Hg1. apply (safe_bind _ _ _ _ (s_nbr _ _ Hg1 Hi)). intros ns Hns.
    apply (safe_bind _ _ GO); [|intros g2 Hg2; exact Hg2]. apply (safe_fold _ GO ing); [exact Hns| |exact Hg1].
    intros g j Hj Hg. apply (safe_bind _ _ _ _ (s_time _ _ Hg Hj)). intros v _. destruct (isTimeBetterThan t v); [apply s_sets; auto|exact Hg].
  - intros s1 Hs1. apply (safe_bind _ _ _ _ (s_sets _ _ FROZEN Hs1 Hi)). intros g3 Hg3. exact Hg3.
Qed.

Section Loop.
Variable solve : sw_state (N := N) -> Z -> res (sw_state (N := N)).
Hypothesis Hsolve : forall s i, ing i -> SWok s -> safe (solve s i) SWok.
Lemma s_sweep incs s : SWok s -> is_dir (length dims) incs -> safe (one_sweep solve incs s) SWok.
Proof.
  intros Hs Hd. unfold one_sweep. replace (g_sh (sw_g s)) with (mk_shape dims) by (symmetry; exact (proj1 Hs)).
  rewrite recIter_flat, sweep_flat by (auto; lia). apply (safe_fold _ SWok ing); [| |exact Hs].
  - intros x Hx. pose proof (sweep_order_perm incs dims Hd Hp) as P. apply (Permutation.Permutation_in x P) in Hx.
    apply in_zseq in Hx. pose proof (box_size_pos dims Hp). unfold ing. lia.
  - intros s0 i Hi Hs0. unfold visit. apply (safe_bind _ _ _ _ (s_get _ _ Hs0 Hi)). intros c _. destruct (isOccupied c); [exact Hs0|apply Hsolve; auto].
Qed.

Lemma s_sweep_loop maxS : forall fuel sweeps incs s, SWok s -> is_dir (length dims) incs ->
  safe (sweep_loop solve fuel maxS sweeps incs s) (fun r => SWok (fst (fst r))).
Proof.
  induction fuel as [|k IH]; intros sweeps incs s Hs Hd; cbn [sweep_loop]; destruct (_ && _ && _); try exact Hs; [exact I|].
  pose proof (proj1 (next_dir _ _ Hd)) as Hd'. apply (safe_bind _ _ SWok); [apply s_sweep; [exact Hs|exact Hd']|].
  intros s' Hs'. apply IH; auto.
Qed.
End Loop.

Lemma s_freeze (g : grid N) : GO g -> safe (freeze_all g) GO.
Proof.
  intros Hg. unfold freeze_all. apply (safe_fold _ GO ing); [|intros g0 i Hi Hg0; apply s_sets; auto|exact Hg].
  intros x Hx. apply in_zseq in Hx. assert (Es : s_n (g_sh g) = box_size dims) by (rewrite (proj1 Hg), mk_shape_eq by (auto; lia); reflexivity). unfold gsize in Hx. pose proof (box_size_pos dims Hp). unfold ing. lia.
Qed.

Lemma s_fsm_run fuel maxS goal init sweeps incs (g : grid N) : GO g -> (forall i, In i init -> ing i) -> is_dir (length dims) incs ->
  safe (fsm_run fuel maxS goal init sweeps incs g) (fun r => GO (sw_g (fst (fst r)))).
Proof.
  intros Hg Hr Hd. unfold fsm_run. apply (safe_bind _ _ GO).
  - apply (safe_fold _ GO ing); [exact Hr|intros g0 i Hi Hg0; apply s_setv; auto|exact Hg].
  - intros g0 Hg0. apply (s_sweep_loop _ (fun s i => s_fsm goal s i)); auto.
Qed.

Lemma s_lsm_run fuel maxS goal init sweeps incs (g : grid N) : GO g -> (forall i, In i init -> ing i) -> is_dir (length dims) incs ->
  safe (lsm_run fuel maxS goal init sweeps incs g) (fun r => GO (sw_g (fst (fst r)))).
Proof.
  intros Hg Hr Hd. unfold lsm_run. apply (safe_bind _ _ _ _ (s_freeze g Hg)). intros g0 Hg0. apply (safe_bind _ _ GO).
  - apply (safe_fold _ GO ing); [exact Hr| |exact Hg0]. intros g1 i Hi Hg1. unfold lsm_init1.
    apply (safe_bind _ _ _ _ (s_setv _ _ n0 Hg1 Hi)). intros g2 Hg2. apply (safe_bind _ _ _ _ (s_nbr _ _ Hg2 Hi)). intros ns Hns.
    apply (safe_fold _ GO ing); [exact Hns|intros; apply s_sets; auto|exact Hg2].
  - intros g1 Hg1. apply (s_sweep_loop _ (fun s i => s_lsm goal s i)); auto.
Qed.

(** *** DDQM *)
Definition DQok (s : dq_state (N := N)) : Prop := GO (dq_g s) /\ (forall i, In i (dq_lo s) -> ing i) /\ (forall i, In i (dq_hi s) -> ing i).

Lemma ing_app l j : (forall i, In i l -> ing i) -> ing j -> forall i, In i (l ++ [j]) -> ing i.
Proof. intros H Hj i Hi. apply in_app_or in Hi. destruct Hi as [Hi|[<-|[]]]; auto. Qed.

Lemma s_ddqm_nb t s n : ing n -> DQok s -> safe (ddqm_neighbor t s n) DQok.
Proof.
  intros Hn [A [B C]]. unfold ddqm_neighbor. apply (safe_bind _ _ _ _ (s_get _ _ A Hn)). intros c _.
  destruct (_ && _); [|split; [exact A|split; [exact B|exact C]]]. apply (safe_bind _ _ _ _ (s_sets _ _ OPEN A Hn)). intros g' Hg'.
  destruct (isTimeBetterThan t (dq_th s)); (split; [exact Hg'|]); cbn [dq_lo dq_hi]; split; auto; apply ing_app; auto.
Qed.

Lemma s_ddqm_pop goal s i : ing i -> DQok s -> safe (ddqm_pop1 goal s i) DQok.
Proof.
  intros Hi HS. pose proof HS as [A [B C]]. unfold ddqm_pop1. apply (safe_bind _ _ _ _ (s_get _ _ A Hi)). intros c _.
  destruct (isOccupied c); [exact HS|]. apply (safe_bind _ _ _ _ (s_eik _ _ A Hi)). intros t _.
  apply (safe_bind _ _ DQok).
  - destruct (isTimeBetterThan t (c_val c)); [|exact HS]. apply (safe_bind _ _ _ _ (s_setv _ _ t A Hi)). intros g1 Hg1.
    apply (safe_bind _ _ _ _ (s_nbr _ _ Hg1 Hi)). intros ns Hns. apply (safe_fold _ DQok ing); [exact Hns|intros; apply s_ddqm_nb; auto|].
    split; [exact Hg1|split; [exact B|exact C]].
  - intros s1 [A1 [B1 C1]]. apply (safe_bind _ _ _ _ (s_sets _ _ FROZEN A1 Hi)). intros g3 Hg3. split; [exact Hg3|split; [exact B1|exact C1]].
Qed.

Lemma s_ddqm_loop goal : forall fuel s, DQok s -> safe (ddqm_loop fuel goal s) DQok.
Proof.
  induction fuel as [|k IH]; intros s HS; cbn [ddqm_loop]; [exact I|].
  assert (Hsw : DQok (increaseThreshold (mkDq (dq_g s) (dq_hi s) (dq_lo s) (dq_th s) (dq_step s) (dq_c0 s) (dq_c1 s) (dq_stop s)))).
  { destruct HS as [A [B C]]. split; [exact A|split; [exact C|exact B]]. }
  assert (Hend : safe (match dq_lo (increaseThreshold (mkDq (dq_g s) (dq_hi s) (dq_lo s) (dq_th s) (dq_step s) (dq_c0 s) (dq_c1 s) (dq_stop s))),
      dq_hi (increaseThreshold (mkDq (dq_g s) (dq_hi s) (dq_lo s) (dq_th s) (dq_step s) (dq_c0 s) (dq_c1 s) (dq_stop s))),
      dq_stop (increaseThreshold (mkDq (dq_g s) (dq_hi s) (dq_lo s) (dq_th s) (dq_step s) (dq_c0 s) (dq_c1 s) (dq_stop s))) with
      | [], [], _ => Ok (increaseThreshold (mkDq (dq_g s) (dq_hi s) (dq_lo s) (dq_th s) (dq_step s) (dq_c0 s) (dq_c1 s) (dq_stop s)))
      | _, _, true => Ok (increaseThreshold (mkDq (dq_g s) (dq_hi s) (dq_lo s) (dq_th s) (dq_step s) (dq_c0 s) (dq_c1 s) (dq_stop s)))
      | _, _, false => ddqm_loop k goal (increaseThreshold (mkDq (dq_g s) (dq_hi s) (dq_lo s) (dq_th s) (dq_step s) (dq_c0 s) (dq_c1 s) (dq_stop s)))
      end) DQok).
  { revert Hsw. generalize (increaseThreshold (mkDq (dq_g s) (dq_hi s) (dq_lo s) (dq_th s) (dq_step s) (dq_c0 s) (dq_c1 s) (dq_stop s))).
    intros s1 H1. destruct (dq_lo s1), (dq_hi s1), (dq_stop s1); try exact H1; apply IH; exact H1. }
  destruct (dq_lo s) as [|i q] eqn:El; [exact Hend|]. destruct (dq_stop s) eqn:Es; [exact Hend|].
  destruct HS as [A [B C]]. rewrite El in B. apply (safe_bind _ _ DQok); [|intros s' Hs'; apply IH; exact Hs'].
  apply s_ddqm_pop; [apply B; left; reflexivity|]. split; [exact A|]. split; [intros x Hx; apply B; right; exact Hx|exact C].
Qed.

Lemma s_ddqm_run fuel goal init th step (g : grid N) : GO g -> (forall i, In i init -> ing i) ->
  safe (ddqm_run fuel goal init th step g) DQok.
Proof.
  intros Hg Hr. unfold ddqm_run. apply (safe_bind _ _ _ _ (s_freeze g Hg)). intros g0 Hg0.
  apply (safe_bind _ _ (fun p => GO (fst p) /\ forall i, In i (snd p) -> ing i)).
  - apply (safe_fold _ _ ing); [exact Hr| |split; [exact Hg0|intros i []]]. intros [g1 q] i Hi [A B]. cbn [fst snd] in *. unfold ddqm_init1.
    apply (safe_bind _ _ _ _ (s_setv _ _ n0 A Hi)). intros g2 Hg2. apply (safe_bind _ _ _ _ (s_nbr _ _ Hg2 Hi)). intros ns Hns.
    apply (safe_fold _ (fun p => GO (fst p) /\ forall i, In i (snd p) -> ing i) ing); [exact Hns| |split; [exact Hg2|exact B]].
    intros [g3 q3] j Hj [A3 B3]. cbn [fst snd] in *. apply (safe_bind _ _ _ _ (s_get _ _ A3 Hj)). intros c _. destruct (isOccupied c); [split; auto|].
    apply (safe_bind _ _ _ _ (s_sets _ _ OPEN A3 Hj)). intros g4 Hg4. split; [exact Hg4|]. cbn [snd]. apply ing_app; auto.
  - intros [g1 q] [A B]. cbn [fst snd] in *. destruct q as [|x q]; [split; [exact A|split; intros i []]|].
    apply s_ddqm_loop. split; [exact A|]. split; [exact B|intros i []].
Qed.

(** *** FIM *)
Notation GL p := (GO (fst p) /\ forall i, In i (snd p) -> ing i).

Lemma s_fim_nb p j : ing j -> GL p -> safe (fim_neighbor (N := N) p j) (fun p => GL p).
Proof.
  destruct p as [g ins]. cbn [fst snd]. intros Hj [A B]. unfold fim_neighbor. apply (safe_bind _ _ _ _ (s_get _ _ A Hj)). intros c _.
  destruct (_ && _); [|split; auto]. apply (safe_bind _ _ _ _ (s_eik _ _ A Hj)). intros q _.
  destruct (isTimeBetterThan q (c_val c)); [|split; auto]. apply (safe_bind _ _ _ _ (s_setv _ _ q A Hj)). intros g1 Hg1.
  apply (safe_bind _ _ _ _ (s_sets _ _ NARROW Hg1 Hj)). intros g2 Hg2. split; [exact Hg2|]. cbn [snd]. apply ing_app; auto.
Qed.

Lemma s_fim_pass E goal : forall after (g : grid N) before stop ub, GO g -> (forall i, In i before -> ing i) -> (forall i, In i after -> ing i) ->
  safe (fim_pass E goal g before after stop ub) (fun r => GO (fst (fst (fst r))) /\ forall i, In i (snd (fst (fst r))) -> ing i).
Proof.
  induction after as [|x r IH]; intros g before stop ub Hg Hb Ha; cbn [fim_pass]; [split; auto|].
  pose proof (Ha x (or_introl eq_refl)) as Hx. assert (Ha' : forall i, In i r -> ing i) by (intros i Hi; apply Ha; right; exact Hi).
  apply (safe_bind _ _ _ _ (s_time _ _ Hg Hx)). intros p _. apply (safe_bind _ _ _ _ (s_eik _ _ Hg Hx)). intros q _.
  apply (safe_bind _ _ _ _ (s_setv _ _ q Hg Hx)). intros g1 Hg1. destruct (nleb _ _).
  - apply (safe_bind _ _ _ _ (s_nbr _ _ Hg1 Hx)). intros ns Hns. apply (safe_bind _ _ (fun p => GL p)).
    + apply (safe_fold _ (fun p => GL p) ing); [exact Hns|intros; apply s_fim_nb; auto|split; [exact Hg1|intros i []]].
    + intros [g2 ins] [A B]. cbn [fst snd] in *. apply (safe_bind _ _ _ _ (s_sets _ _ FROZEN A Hx)). intros g3 Hg3. apply IH; auto.
      intros i Hi. apply in_app_or in Hi. destruct Hi; auto.
  - apply IH; auto. apply ing_app; auto.
Qed.

Lemma s_fim_loop E goal : forall fuel (g : grid N) l stop ub, GO g -> (forall i, In i l -> ing i) ->
  safe (fim_loop fuel E goal g l stop ub) (fun r => GO (fst (fst r)) /\ forall i, In i (snd (fst r)) -> ing i).
Proof.
  induction fuel as [|k IH]; intros g l stop ub Hg Hl; cbn [fim_loop]; (destruct stop; [split; auto|]); (destruct l as [|x l]; [split; [exact Hg|intros i []]|]); [exact I|].
  apply (safe_bind _ _ _ _ (s_fim_pass E goal (x :: l) g [] false ub Hg (fun i (K : In i []) => match K with end) Hl)).
  intros [[[g' l'] stop'] ub'] [A B]. cbn [fst snd] in *. apply IH; auto.
Qed.

Lemma s_fim_run fuel E goal init (g : grid N) : GO g -> (forall i, In i init -> ing i) ->
  safe (fim_run fuel E goal init g) (fun r => GO (fst (fst r)) /\ forall i, In i (snd (fst r)) -> ing i).
Proof.
  intros Hg Hr. unfold fim_run. apply (safe_bind _ _ (fun s => GO (fi_g s) /\ forall i, In i (fi_l s) -> ing i)).
  - apply (safe_fold _ _ ing); [exact Hr| |split; [exact Hg|intros i []]]. intros s i Hi [A B]. unfold fim_init1.
    apply (safe_bind _ _ _ _ (s_setv _ _ n0 A Hi)). intros g1 Hg1. apply (safe_bind _ _ _ _ (s_sets _ _ FROZEN Hg1 Hi)). intros g2 Hg2.
    apply (safe_bind _ _ _ _ (s_nbr _ _ Hg2 Hi)). intros ns Hns.
    apply (safe_fold _ (fun s => GO (fi_g s) /\ forall i, In i (fi_l s) -> ing i) ing); [exact Hns| |split; [exact Hg2|exact B]].
    intros s3 j Hj [A3 B3]. apply (safe_bind _ _ _ _ (s_get _ _ A3 Hj)). intros c _. destruct (_ && _); [|split; auto].
    apply (safe_bind _ _ _ _ (s_sets _ _ NARROW A3 Hj)). intros g4 Hg4. split; [exact Hg4|]. cbn [fi_l]. apply ing_app; auto.
  - intros s [A B]. apply s_fim_loop; auto.
Qed.

(** *** GMM *)
Definition GMok (s : gmm_state (N := N)) : Prop := GO (gm_g s) /\ forall i, In i (gm_l s) -> ing i.

Lemma s_gmm_first tm (g : grid N) i : ing i -> GO g -> safe (gmm_first tm g i) GO.
Proof.
  intros Hi Hg. unfold gmm_first. apply (safe_bind _ _ _ _ (s_time _ _ Hg Hi)). intros ti _. destruct (nleb ti tm); [|exact Hg].
  apply (safe_bind _ _ _ _ (s_nbr _ _ Hg Hi)). intros ns Hns. apply (safe_fold _ GO ing); [exact Hns| |exact Hg].
  intros g1 j Hj Hg1. apply (safe_bind _ _ _ _ (s_get _ _ Hg1 Hj)). intros c _. destruct (gmm_skip c); [exact Hg1|].
  apply (safe_bind _ _ _ _ (s_eik _ _ Hg1 Hj)). intros t _. destruct (nltb t (c_val c)); [apply s_setv; auto|exact Hg1].
Qed.

Lemma s_gmm_nb p j : ing j -> GL p -> safe (gmm_second_nb (N := N) p j) (fun p => GL p).
Proof.
  destruct p as [g l]. cbn [fst snd]. intros Hj [A B]. unfold gmm_second_nb. apply (safe_bind _ _ _ _ (s_get _ _ A Hj)). intros c _.
  destruct (gmm_skip c); [split; auto|]. apply (safe_bind _ _ _ _ (s_eik _ _ A Hj)). intros t _.
  apply (safe_bind _ _ GO); [destruct (nltb t (c_val c)); [apply s_setv; auto|exact A]|]. intros g1 Hg1.
  destruct (fmstate_eqb (c_state c) OPEN); [|split; auto].
  apply (safe_bind _ _ _ _ (s_sets _ _ NARROW Hg1 Hj)). intros g2 Hg2. split; [exact Hg2|]. cbn [snd]. apply ing_app; auto.
Qed.

Lemma s_gmm_second tm goal : forall l (g : grid N) kept pushed stop, GO g -> (forall i, In i kept -> ing i) -> (forall i, In i l -> ing i) ->
  (forall i, In i pushed -> ing i) -> safe (gmm_second tm goal g kept l pushed stop) (fun r => GO (fst (fst r)) /\ forall i, In i (snd (fst r)) -> ing i).
Proof.
  induction l as [|x r IH]; intros g kept pushed stop Hg Hk Hl Hpu; cbn [gmm_second].
  { split; [exact Hg|]. intros i Hi. cbn [fst snd] in Hi. apply in_app_or in Hi. destruct Hi; auto. }
  pose proof (Hl x (or_introl eq_refl)) as Hx. assert (Hl' : forall i, In i r -> ing i) by (intros i Hi; apply Hl; right; exact Hi).
  apply (safe_bind _ _ _ _ (s_time _ _ Hg Hx)). intros ti _. destruct (nleb ti tm).
  - apply (safe_bind _ _ _ _ (s_nbr _ _ Hg Hx)). intros ns Hns. apply (safe_bind _ _ (fun p => GL p)).
    + apply (safe_fold _ (fun p => GL p) ing); [exact Hns|intros; apply s_gmm_nb; auto|split; [exact Hg|exact Hpu]].
    + intros [g1 p1] [A B]. cbn [fst snd] in *. apply (safe_bind _ _ _ _ (s_sets _ _ FROZEN A Hx)). intros g2 Hg2. apply IH; auto.
  - apply IH; auto. apply ing_app; auto.
Qed.

Lemma s_gmm_loop dt goal : forall fuel s stop, GMok s -> safe (gmm_loop fuel dt goal s stop) GMok.
Proof.
  induction fuel as [|k IH]; intros s stop HS; cbn [gmm_loop]; (destruct stop; [exact HS|]); (destruct (gm_l s) as [|x l] eqn:El; [exact HS|]); [exact I|].
  destruct HS as [A B]. rewrite El in B. apply (safe_bind _ _ GO).
  - apply (safe_fold _ GO ing); [|intros; apply s_gmm_first; auto|exact A]. intros i Hi. apply B, in_rev, Hi.
  - intros g1 Hg1. apply (safe_bind _ _ _ _ (s_gmm_second _ goal (x :: l) g1 [] [] false Hg1 (fun i (K : In i []) => match K with end) B (fun i (K : In i []) => match K with end))).
    intros [[g2 l2] stop2] [C D]. cbn [fst snd] in *. apply IH. split; auto.
Qed.

Lemma s_gmm_run fuel dt goal init (g : grid N) : GO g -> (forall i, In i init -> ing i) -> safe (gmm_run fuel dt goal init g) GMok.
Proof.
  intros Hg Hr. unfold gmm_run. apply (safe_bind _ _ GMok).
  - apply (safe_fold _ GMok ing); [exact Hr| |split; [exact Hg|intros i []]]. intros s i Hi [A B]. unfold gmm_init1.
    apply (safe_bind _ _ _ _ (s_setv _ _ n0 A Hi)). intros g1 Hg1. apply (safe_bind _ _ _ _ (s_sets _ _ FROZEN Hg1 Hi)). intros g2 Hg2.
    apply (safe_bind _ _ _ _ (s_nbr _ _ Hg2 Hi)). intros ns Hns.
    apply (safe_fold _ GMok ing); [exact Hns| |split; [exact Hg2|exact B]].
    intros s3 j Hj [A3 B3]. apply (safe_bind _ _ _ _ (s_get _ _ A3 Hj)). intros c _. destruct (_ || _); [split; auto|].
    apply (safe_bind _ _ _ _ (s_eik _ _ A3 Hj)). intros t _. apply (safe_bind _ _ _ _ (s_setv _ _ t A3 Hj)). intros ga Hga.
    apply (safe_bind _ _ _ _ (s_sets _ _ NARROW Hga Hj)). intros g4 Hg4. split; [exact Hg4|]. cbn [gm_l]. apply ing_app; auto.
  - intros s HS. apply s_gmm_loop; exact HS.
Qed.
End Safe.

(** Prop_Bench.v - property theorems C45: what Benchmark::run does and writes. *)
From Coq Require Import Ascii String Reals Lra DecimalN DecimalNat.
From Verif Require Import Base BaseFacts Num NumXR NumF64 NumLaws Grid GridFacts GridUpd Spec Obs Examples FMMModel HeapRef SweepModel QueueModel
  UntidyModel Frame SolverModel Lifecycle Prop_Heap Prop_Solver TextModel TextFacts IOModel IOFacts Prop_IO BenchModel.
Open Scope Z_scope.
Open Scope list_scope.

(** ** run identifiers *)
(** the number a text of digits stands for, leading zeros allowed *)
Lemma uint_zeros : forall k t u, uint_of_text t = Some u -> exists v, uint_of_text (repeat "0"%char k ++ t) = Some v /\ N.of_uint v = N.of_uint u.
Proof.
  induction k as [|k IH]; intros t u H; cbn [repeat app]; [exists u; auto|].
  destruct (IH t u H) as [v [Hv E]]. exists (Decimal.D0 v). split; [|exact E]. cbn [uint_of_text]. rewrite Hv. reflexivity.
Qed.

Lemma formatID_reads id : 0 <= id < 4294967296 -> readU 4294967296 (formatID id) = Some id.
Proof.
  intros H. unfold formatID. pose proof (uint_text (N.to_uint (Z.to_N id))) as U. fold (showU id) in U.
  destruct (uint_zeros (4 - List.length (showU id)) _ _ U) as [v [Hv E]]. rewrite DecimalN.Unsigned.of_to in E.
  unfold readU. destruct (repeat "0"%char (4 - List.length (showU id)) ++ showU id) as [|c t] eqn:EL.
  { apply app_eq_nil in EL. destruct EL as [_ EL]. exfalso. exact (showU_nonempty _ EL). }
  rewrite Hv, E, Z2N.id by lia. destruct (Z.ltb_spec id 4294967296); [reflexivity|lia].
Qed.

Theorem C45_identifiers_differ :
  forall i j, 0 <= i < 4294967296 -> 0 <= j < 4294967296 -> formatID i = formatID j -> i = j.
Proof. intros i j Hi Hj E. pose proof (formatID_reads i Hi) as A. rewrite E, formatID_reads in A by lia. injection A. auto. Qed.

Theorem C45_identifiers_have_four_characters : forall i, (4 <= List.length (formatID i))%nat.
Proof. intros i. unfold formatID. rewrite app_length, repeat_length. lia. Qed.

(** no dot in a run identifier: the file name is the identifier followed by ".grid" *)
Lemma digits_no_dot u : Forall (fun c => c <> "."%char) (text_of_uint u).
Proof. induction u; cbn [text_of_uint]; constructor; try discriminate; auto. Qed.
Lemma stem_none t : Forall (fun c => c <> "."%char) t -> stem t = None.
Proof.
  induction t as [|c t IH]; intros H; [reflexivity|]. inversion H as [|? ? Hc Ht]; subst. cbn [stem]. rewrite (IH Ht).
  destruct (Ascii.eqb_spec c "."); [contradiction|reflexivity].
Qed.
Lemma formatID_file id : grid_file (formatID id) = formatID id ++ str ".grid".
Proof.
  unfold grid_file. rewrite stem_none; [reflexivity|]. unfold formatID. apply Forall_app. split; [|apply digits_no_dot].
  apply Forall_forall. intros c Hc. apply repeat_spec in Hc. subst. discriminate.
Qed.
Theorem C45_run_files_differ :
  forall i j, 0 <= i < 4294967296 -> 0 <= j < 4294967296 -> grid_file (formatID i) = grid_file (formatID j) -> i = j.
Proof. intros i j Hi Hj E. rewrite !formatID_file in E. apply app_inv_tail in E. apply C45_identifiers_differ; auto. Qed.

(** with one file per solver, the name of the file is the solver's name up to its last dot *)
Theorem C45_same_stem_same_file :
  forall base e1 e2, ~ In "."%char e1 -> ~ In "."%char e2 ->
  grid_file (base ++ "."%char :: e1) = grid_file (base ++ "."%char :: e2) /\ grid_file (base ++ "."%char :: e1) = base ++ str ".grid".
Proof.
  assert (K : forall base e, ~ In "."%char e -> stem (base ++ "."%char :: e) = Some base).
  { induction base as [|c base IH]; intros e He; cbn [app stem].
    - rewrite stem_none; [reflexivity|]. apply Forall_forall. intros c Hc ->. contradiction.
    - rewrite IH by auto. reflexivity. }
  intros base e1 e2 H1 H2. unfold grid_file. rewrite !K by auto. auto.
Qed.

Section B.
Context {N : Num} (showD : N -> text) (timeOf : Z -> text).
Notation bench_run := (bench_run showD timeOf).
Notation run_solvers := (run_solvers showD timeOf).
Notation runs := (runs showD timeOf).

(** ** the log *)
(** the list of (identifier, solver name) of [n] runs for every name, numbered from id+1 *)
Definition numbered (id : Z) (names : list text) : list (Z * text) := combine (map (fun k => id + 1 + Z.of_nat k) (seq 0 (List.length names))) names.
Definition lines (l : list (Z * text)) : text := flat_map (fun e => log_line timeOf (fst e) (snd e)) l.

Lemma seq_off a k n : seq (a + k) n = map (fun x => (a + x)%nat) (seq k n).
Proof. revert k. induction n as [|n IH]; intros k; cbn; [reflexivity|]. rewrite plus_n_Sm, IH. reflexivity. Qed.
Lemma numbered_app id a b : numbered id (a ++ b) = numbered id a ++ numbered (id + Z.of_nat (List.length a)) b.
Proof.
  unfold numbered. rewrite app_length, seq_app, map_app. cbn [plus].
  assert (K : forall (A B : Type) (x y : list A) (u v : list B), List.length x = List.length u -> combine (x ++ y) (u ++ v) = combine x u ++ combine y v).
  { intros A B x. induction x as [|h x IH]; intros y u v H; destruct u as [|p u]; cbn in H; try discriminate; [reflexivity|]. cbn [app combine]. rewrite IH by lia. reflexivity. }
  rewrite K by (rewrite map_length, seq_length; reflexivity). f_equal. f_equal.
  rewrite <- (Nat.add_0_r (List.length a)) at 1. rewrite seq_off. rewrite map_map. apply map_ext. intros k. lia.
Qed.

Lemma lines_app a b : lines (a ++ b) = lines a ++ lines b.
Proof. apply flat_map_app. Qed.
Lemma numbered_cons id a b : numbered id (a :: b) = (id + 1, a) :: numbered (id + 1) b.
Proof.
  change (a :: b) with ([a] ++ b). rewrite numbered_app. unfold numbered at 1. cbn. rewrite Z.add_0_r. reflexivity.
Qed.

Lemma runs_log : forall n sg name c (o : sc_obj c) g id log files o' g' id' log' files',
  runs n sg name c o g id log files = Ok (o', g', id', log', files') -> 0 <= id -> id + Z.of_nat n < 4294967296 ->
  id' = id + Z.of_nat n /\ log' = log ++ lines (numbered id (repeat name n)).
Proof.
  induction n as [|n IH]; intros sg name c o g id log files o' g' id' log' files' H H0 Hn; cbn [BenchModel.runs] in H.
  - injection H as <- <- <- <- <-. cbn. rewrite app_nil_r. split; [lia|reflexivity].
  - assert (Eid : u32 (id + 1) = id + 1) by (unfold u32; apply Z.mod_small; lia). rewrite Eid in H.
    apply bind_ok in H. destruct H as [[o1 g1] [_ H]]. apply bind_ok in H. destruct H as [[o2 g2] [_ H]].
    apply bind_ok in H. destruct H as [fs [_ H]]. apply IH in H; [|lia|lia]. destruct H as [-> ->]. split; [lia|].
    cbn [repeat]. rewrite numbered_cons. rewrite <- app_assoc. reflexivity.
Qed.

Lemma run_solvers_log : forall l sg n g id log files l' g' id' log' files',
  run_solvers l sg n g id log files = Ok (l', g', id', log', files') -> 0 <= id -> 0 <= n -> id + n * Z.of_nat (List.length l) < 4294967296 ->
  map bs_name l' = map bs_name l /\ id' = id + n * Z.of_nat (List.length l) /\
  log' = log ++ lines (numbered id (flat_map (fun s => repeat (bs_name s) (Z.to_nat n)) l)).
Proof.
  induction l as [|s l IH]; intros sg n g id log files l' g' id' log' files' H H0 Hn Hlt; cbn [BenchModel.run_solvers] in H.
  - injection H as <- <- <- <- <-. cbn. rewrite app_nil_r. repeat split; lia.
  - cbn [List.length] in Hlt. rewrite Nat2Z.inj_succ in Hlt. assert (Hpos : 0 <= n * Z.of_nat (List.length l)) by nia.
    apply bind_ok in H. destruct H as [[[[[o1 g1] id1] log1] files1] [H1 H]]. apply runs_log in H1; [|lia|rewrite Z2Nat.id; lia].
    rewrite Z2Nat.id in H1 by lia. destruct H1 as [-> ->].
    apply bind_ok in H. destruct H as [fs [_ H]]. apply bind_ok in H. destruct H as [[o2 g2] [_ H]]. apply bind_ok in H. destruct H as [[[[[r1 g3] id3] log3] files3] [H3 H]].
    injection H as <- <- <- <- <-. apply IH in H3; [|lia|lia|lia]. destruct H3 as [E1 [-> ->]]. cbn [map bs_name]. rewrite E1.
    split; [reflexivity|]. split; [cbn [List.length]; lia|]. cbn [flat_map]. rewrite numbered_app, lines_app, <- app_assoc.
    rewrite repeat_length, Z2Nat.id by lia. reflexivity.
Qed.

Lemma configSolvers_names : forall l init goal (g : grid N) l' g', configSolvers l init goal g = Ok (l', g') -> map bs_name l' = map bs_name l.
Proof.
  induction l as [|s l IH]; intros init goal g l' g' H; cbn [configSolvers] in H; [injection H as <- <-; reflexivity|].
  apply bind_ok in H. destruct H as [[o g1] [_ H]]. apply bind_ok in H. destruct H as [[r1 g2] [H2 H]]. injection H as <- <-.
  cbn [map bs_name]. rewrite (IH _ _ _ _ _ H2). reflexivity.
Qed.

(** the name of the solver that does run number k (from 0) when each does n *)
Lemma nth_flat_repeat : forall (l : list (bsolver N)) n k nm, (0 < n)%nat ->
  (nth_error (flat_map (fun s => repeat (bs_name s) n) l) k = Some nm <-> exists s, nth_error l (k / n) = Some s /\ bs_name s = nm).
Proof.
  induction l as [|s l IH]; intros n k nm Hn; cbn [flat_map].
  - split; [destruct k; discriminate|]. intros [s [H _]]. destruct (k / n)%nat; discriminate.
  - destruct (Nat.lt_ge_cases k n) as [Hk|Hk].
    + rewrite nth_error_app1 by (rewrite repeat_length; lia). rewrite Nat.div_small by lia. cbn [nth_error].
      rewrite nth_error_repeat by lia. split; [intros H; injection H as <-; eauto|intros [s' [H <-]]; injection H as <-; reflexivity].
    + rewrite nth_error_app2 by (rewrite repeat_length; lia). rewrite repeat_length.
      assert (Ek : (k / n = S ((k - n) / n))%nat).
      { replace k with ((k - n) + 1 * n)%nat at 1 by lia. rewrite Nat.div_add by lia. lia. }
      rewrite Ek. cbn [nth_error]. apply IH; auto.
Qed.

Lemma nth_numbered id names k : nth_error (numbered id names) k = match nth_error names k with Some nm => Some (id + 1 + Z.of_nat k, nm) | None => None end.
Proof.
  revert id k. induction names as [|a b IH]; intros id k; [destruct k; reflexivity|]. rewrite numbered_cons. destruct k as [|k]; cbn [nth_error].
  - rewrite Z.add_0_r. reflexivity.
  - rewrite IH. destruct (nth_error b k); [|reflexivity]. do 2 f_equal. lia.
Qed.

(** Benchmark::run: the log gets one configuration line, then nruns lines per solver, in the
    order of the solvers, numbered consecutively. *)
Theorem C45_log :
  forall (b b' : bench N) (g g' : grid N),
  bench_run b g = Ok (b', g') -> 0 <= b_runID b -> 0 < b_nruns b -> b_runID b + b_nruns b * Z.of_nat (List.length (b_solvers b)) < 4294967296 ->
  exists gc (runs : list (Z * text)),
    b_log b' = b_log b ++ logConfig b gc ++ flat_map (fun e => newline :: formatID (fst e) ++ [tab] ++ snd e ++ [tab] ++ timeOf (fst e)) runs /\
    Z.of_nat (List.length runs) = b_nruns b * Z.of_nat (List.length (b_solvers b)) /\
    (forall k id name, nth_error runs k = Some (id, name) ->
       id = b_runID b + 1 + Z.of_nat k /\
       exists s, nth_error (b_solvers b) (k / Z.to_nat (b_nruns b)) = Some s /\ name = bs_name s) /\
    b_runID b' = b_runID b + Z.of_nat (List.length runs) /\ map bs_name (b_solvers b') = map bs_name (b_solvers b).
Proof.
  intros b b' g g' H H0 Hn Hlt. unfold BenchModel.bench_run in H. apply bind_ok in H. destruct H as [[ss g1] [H1 H]].
  apply bind_ok in H. destruct H as [[[[[s2 g2] id] log] files] [H2 H]]. injection H as <- <-.
  pose proof (configSolvers_names _ _ _ _ _ _ H1) as En. assert (El : List.length ss = List.length (b_solvers b)) by (rewrite <- (map_length bs_name ss), En, map_length; reflexivity).
  apply run_solvers_log in H2; [|lia|lia|rewrite El; lia]. destruct H2 as [E1 [E2 E3]]. cbn [b_log b_runID b_solvers].
  assert (Ef : flat_map (fun s => repeat (bs_name s) (Z.to_nat (b_nruns b))) ss = flat_map (fun s => repeat (bs_name s) (Z.to_nat (b_nruns b))) (b_solvers b)).
  { clear - En. revert En. generalize (b_solvers b) as l. induction ss as [|s ss IH]; intros l En; destruct l as [|p l]; cbn in En; try discriminate; [reflexivity|].
    injection En as E En. cbn [flat_map]. rewrite E, (IH _ En). reflexivity. }
  rewrite Ef in E3. set (L := flat_map (fun s => repeat (bs_name s) (Z.to_nat (b_nruns b))) (b_solvers b)) in *.
  exists g1, (numbered (b_runID b) L). split; [rewrite E3, <- app_assoc; reflexivity|].
  assert (ELn : Z.of_nat (List.length (numbered (b_runID b) L)) = b_nruns b * Z.of_nat (List.length (b_solvers b))).
  { unfold numbered. rewrite combine_length, map_length, seq_length, Nat.min_id. unfold L. clear - Hn. induction (b_solvers b) as [|s l IH]; cbn [flat_map List.length]; [lia|].
    rewrite app_length, repeat_length, Nat2Z.inj_add, IH, Z2Nat.id; lia. }
  split; [exact ELn|]. split; [|split; [rewrite ELn, E2, El; reflexivity|rewrite E1; exact En]].
  intros k i nm Hk. rewrite nth_numbered in Hk. destruct (nth_error L k) as [nm'|] eqn:EL; [|discriminate]. injection Hk as <- <-. split; [reflexivity|].
  apply nth_flat_repeat in EL; [|lia]. destruct EL as [s [Hs <-]]. eauto.
Qed.

(** The configuration line ends with the goal, or with "nan" when no goal was given. *)
Theorem C45_configuration_line :
  forall (b : bench N) (g : grid N) k, 0 <= k < 4294967295 ->
  exists pre, (b_goal b = noGoal -> logConfig b g = pre ++ [tab] ++ str "nan") /\
  (b_goal b = k -> logConfig b g = pre ++ [tab] ++ showU k) /\
  exists post, pre = b_name b ++ [tab] ++ showU (b_nruns b) ++ [tab] ++ showU (Z.of_nat (List.length (s_dims (g_sh g)))) ++ [tab] ++ post.
Proof.
  intros b g k Hk.
  assert (K : exists m, showU (Z.of_nat (List.length (b_init b))) ++ [tab] ++ flat_map (fun i => showU i ++ [tab]) (b_init b) = m ++ [tab]).
  { induction (b_init b) as [|i l _] using rev_ind; [eexists; reflexivity|]. rewrite flat_map_app. cbn [flat_map]. rewrite app_nil_r. eexists. rewrite !app_assoc. reflexivity. }
  destruct K as [m Em].
  assert (EL : logConfig b g = (b_name b ++ [tab] ++ showU (b_nruns b) ++ [tab] ++ showU (Z.of_nat (List.length (s_dims (g_sh g)))) ++ [tab] ++
     (flat_map (fun d => showU d ++ [tab]) (s_dims (g_sh g)) ++ m)) ++ [tab] ++ (if s32 (b_goal b) =? -1 then str "nan" else showU (b_goal b))).
  { unfold logConfig. rewrite <- !app_assoc. do 7 f_equal. rewrite (app_assoc m), <- Em, <- !app_assoc. reflexivity. }
  eexists. rewrite EL. split; [|split; [|eexists; reflexivity]].
  - intros ->. reflexivity.
  - intros ->. assert (E : s32 k =? -1 = false). { apply Z.eqb_neq. unfold s32, u32. rewrite Z.mod_small by lia. cbv zeta. destruct (Z.ltb_spec k 2147483648); lia. }
    rewrite E. reflexivity.
Qed.

(** ** the runs do not influence one another *)
(** [o] is ready to compute on the clean map [gc]: resetting it first makes no difference,
    and after a run a reset brings the clean map back and the run can be repeated. *)
Definition repeatable (c : sclass N) (o : sc_obj c) (gc : grid N) : Prop :=
  (exists o', sc_reset c o gc = Ok (o', gc) /\ sc_compute c o' gc = sc_compute c o gc) /\
  (forall o1 g1, sc_compute c o gc = Ok (o1, g1) -> exists o2, sc_reset c o1 g1 = Ok (o2, gc) /\ sc_compute c o2 gc = Ok (o1, g1)).

(** a solver as [new] returns it: given an environment and points it is repeatable *)
Definition fresh (s : bsolver N) : Prop :=
  forall g init goal, honest g -> exists o,
    sc_env (bs_class s) (bs_obj s) (Some g) = Ok (o, clean g) /\ sc_env (bs_class s) (bs_obj s) (Some (clean g)) = Ok (o, clean g) /\
    repeatable (bs_class s) (sc_points (bs_class s) o init goal) (clean g).

(** what the solver computes when it is the only one to use the map *)
Definition alone (s : bsolver N) (g : grid N) (init : list Z) (goal : Z) (r : grid N) : Prop :=
  exists o g0 o1, sc_env (bs_class s) (bs_obj s) (Some g) = Ok (o, g0) /\ sc_compute (bs_class s) (sc_points (bs_class s) o init goal) g0 = Ok (o1, r).

Lemma runs_repeat : forall n sg name c (o : sc_obj c) gc o1 g1 id log files o' g' id' log' files',
  sc_compute c o gc = Ok (o1, g1) -> repeatable c o gc ->
  runs n sg name c o gc id log files = Ok (o', g', id', log', files') \/ runs n sg name c o1 g1 id log files = Ok (o', g', id', log', files') ->
  0 <= id -> id + Z.of_nat n < 4294967296 ->
  (n <> O -> o' = o1 /\ g' = g1) /\
  (sg = 2 -> exists t, (n <> O -> saveGridValues showD g1 = Ok t) /\ files' = files ++ map (fun k => (grid_file (formatID (id + 1 + Z.of_nat k)), t)) (seq 0 n)) /\
  (sg <> 2 -> files' = files).
Proof.
  induction n as [|n IH]; intros sg name c o gc o1 g1 id log files o' g' id' log' files' Hc [[ob [Hr0 Hc0]] Hrep] H H0 Hn.
  - assert (Ef : files' = files) by (cbn [BenchModel.runs] in H; destruct H as [H|H]; inversion H; reflexivity).
    split; [lia|]. split; [|auto]. intros _. exists []. split; [lia|]. cbn. rewrite app_nil_r. exact Ef.
  - cbn [BenchModel.runs] in H. assert (Eid : u32 (id + 1) = id + 1) by (unfold u32; apply Z.mod_small; lia). rewrite Eid in H.
    destruct (Hrep _ _ Hc) as [o2 [Hr2 Hc2]].
    assert (K : exists fs, (if sg =? 2 then t <- saveGridValues showD g1 ;; Ok (files ++ [(grid_file (formatID (id + 1)), t)]) else Ok files) = Ok fs /\
      runs n sg name c o1 g1 (id + 1) (log ++ log_line timeOf (id + 1) name) fs = Ok (o', g', id', log', files')).
    { destruct H as [H|H].
      - rewrite Hr0 in H. cbn [bind] in H. rewrite Hc0, Hc in H. cbn [bind] in H. apply bind_ok in H. exact H.
      - rewrite Hr2 in H. cbn [bind] in H. rewrite Hc2 in H. cbn [bind] in H. apply bind_ok in H. exact H. }
    destruct K as [fs [Hfs K]].
    destruct (IH sg name c o gc o1 g1 (id + 1) (log ++ log_line timeOf (id + 1) name) fs o' g' id' log' files' Hc (conj (ex_intro _ ob (conj Hr0 Hc0)) Hrep) (or_intror K) ltac:(lia) ltac:(lia)) as [I1 [I2 I3]].
    split.
    { intros _. destruct n; [cbn [BenchModel.runs] in K; inversion K; auto|]. apply I1. lia. }
    split.
    + intros ->. cbn [Z.eqb Pos.eqb] in Hfs. apply bind_ok in Hfs. destruct Hfs as [t [Ht Hfs]]. injection Hfs as <-.
      destruct (I2 eq_refl) as [t' [Ht' ->]]. exists t. split; [auto|]. cbn [seq map]. rewrite <- app_assoc. cbn [app]. rewrite Z.add_0_r. do 2 f_equal.
      rewrite <- seq_shift, map_map. destruct n; [reflexivity|]. specialize (Ht' ltac:(lia)). assert (t' = t) by congruence. subst t'.
      apply map_ext. intros k. do 3 f_equal. lia.
    + intros Hsg. destruct (Z.eqb_spec sg 2); [contradiction|]. injection Hfs as <-. auto.
Qed.

Definition ready (g : grid N) (init : list Z) (goal : Z) (s s' : bsolver N) : Prop :=
  bs_name s' = bs_name s /\ repeatable (bs_class s') (bs_obj s') (clean g) /\
  (forall o1 r, sc_compute (bs_class s') (bs_obj s') (clean g) = Ok (o1, r) -> alone s g init goal r).

Lemma config_ready : forall l g init goal gx, honest g -> Forall fresh l -> gx = g \/ gx = clean g ->
  exists l', configSolvers l init goal gx = Ok (l', match l with [] => gx | _ => clean g end) /\ Forall2 (ready g init goal) l l'.
Proof.
  induction l as [|s l IH]; intros g init goal gx Hh Hf Hx; cbn [configSolvers]; [exists []; auto|].
  inversion Hf as [|? ? Hs Hl]; subst. destruct (Hs g init goal Hh) as [o [E1 [E2 Hrep]]].
  assert (E : sc_env (bs_class s) (bs_obj s) (Some gx) = Ok (o, clean g)) by (destruct Hx as [->| ->]; auto).
  rewrite E. cbn [bind]. destruct (IH g init goal (clean g) Hh Hl (or_intror eq_refl)) as [l' [El' Hr]]. rewrite El'. cbn [bind].
  exists (mkBS (bs_class s) (sc_points (bs_class s) o init goal) (bs_name s) :: l'). split; [destruct l; reflexivity|].
  constructor; [|exact Hr]. split; [reflexivity|]. split; [exact Hrep|]. intros o1 r Hc. exists o, (clean g), o1. auto.
Qed.

Lemma run_solvers_ready : forall l l' g init goal sg n id log files ls gx id' log' files',
  Forall2 (ready g init goal) l l' -> run_solvers l' sg n (clean g) id log files = Ok (ls, gx, id', log', files') ->
  0 <= id -> 0 < n -> id + n * Z.of_nat (List.length l) < 4294967296 ->
  gx = clean g /\ Forall (fun s => exists r, alone s g init goal r) l /\
  (sg = 2 -> exists fl, files' = files ++ fl /\ Z.of_nat (List.length fl) = n * Z.of_nat (List.length l) /\
     forall k nm t, nth_error fl k = Some (nm, t) -> nm = formatID (id + 1 + Z.of_nat k) ++ str ".grid" /\
       exists s r, nth_error l (k / Z.to_nat n) = Some s /\ alone s g init goal r /\ saveGridValues showD r = Ok t) /\
  (sg = 1 -> exists fl, files' = files ++ fl /\ List.length fl = List.length l /\
     forall k nm t, nth_error fl k = Some (nm, t) ->
       exists s r, nth_error l k = Some s /\ nm = grid_file (bs_name s) /\ alone s g init goal r /\ saveGridValues showD r = Ok t) /\
  (sg <> 1 -> sg <> 2 -> files' = files).
Proof.
  induction l as [|s l IH]; intros l' g init goal sg n id log files ls gx id' log' files' Hr H H0 Hn Hlt; inversion Hr as [|? s' ? l1 Hs Hl]; subst; cbn [BenchModel.run_solvers] in H.
  - inversion H; subst. split; [auto|]. split; [constructor|].
    split; [intros _; exists []; rewrite app_nil_r; split; [auto|]; split; [cbn; lia|]; intros k nm t Hk; destruct k; discriminate Hk|].
    split; [intros _; exists []; rewrite app_nil_r; split; [auto|]; split; [cbn; lia|]; intros k nm t Hk; destruct k; discriminate Hk|auto].
  - cbn [List.length] in Hlt. rewrite Nat2Z.inj_succ in Hlt. assert (Hpos : 0 <= n * Z.of_nat (List.length l)) by nia.
    destruct Hs as [Enm [Hrep Hal]].
    apply bind_ok in H. destruct H as [[[[[o1 g1] id1] log1] files1] [H1 H]].
    (* the first run of this solver succeeds *)
    assert (Hc : exists oc gc, sc_compute (bs_class s') (bs_obj s') (clean g) = Ok (oc, gc)).
    { destruct Hrep as [[ob [Hr0 Hc0]] _]. destruct (Z.to_nat n) as [|m] eqn:Em; [lia|]. cbn [BenchModel.runs] in H1. rewrite Hr0 in H1. cbn [bind] in H1.
      apply bind_ok in H1. destruct H1 as [[oc gc] [Hc _]]. rewrite Hc0 in Hc. eauto. }
    destruct Hc as [oc [gc Hc]]. pose proof (runs_log _ _ _ _ _ _ _ _ _ _ _ _ _ _ H1 ltac:(lia) ltac:(rewrite Z2Nat.id; lia)) as [Eid _].
    rewrite Z2Nat.id in Eid by lia. subst id1.
    destruct (runs_repeat _ _ _ _ _ _ _ _ _ _ _ _ _ _ _ _ Hc Hrep (or_introl H1) ltac:(lia) ltac:(rewrite Z2Nat.id; lia)) as [K1 [K2 K3]].
    destruct (K1 ltac:(lia)) as [-> ->]. specialize (Hal _ _ Hc).
    apply bind_ok in H. destruct H as [fs [Hfs H]]. apply bind_ok in H. destruct H as [[o2 g2] [H2 H]]. apply bind_ok in H. destruct H as [[[[[r1 g3] id3] log3] files3] [H3 H]].
    injection H as <- <- <- <- <-. destruct Hrep as [_ Hrep]. destruct (Hrep _ _ Hc) as [o3 [Hr3 _]]. rewrite Hr3 in H2. inversion H2; subst o3 g2. clear H2.
    destruct (IH l1 g init goal sg n (id + n) log1 fs r1 g3 id3 log3 files3 Hl H3 ltac:(lia) Hn ltac:(lia)) as [I1 [I2 [I3 [I4 I5]]]].
    split; [exact I1|]. split; [constructor; eauto|]. split; [|split].
    + intros ->. destruct (I3 eq_refl) as [fl [-> [Elen Hfl]]]. cbn in Hfs. injection Hfs as <-. destruct (K2 eq_refl) as [t [Ht ->]]. specialize (Ht ltac:(lia)).
      eexists. split; [rewrite <- app_assoc; reflexivity|]. split; [rewrite app_length, map_length, seq_length; cbn [List.length]; rewrite Nat2Z.inj_succ, Z.mul_succ_r; lia|].
      intros k nm t0 Hk. destruct (Nat.lt_ge_cases k (Z.to_nat n)) as [Hlk|Hlk].
      * rewrite nth_error_app1 in Hk by (rewrite map_length, seq_length; lia). rewrite nth_error_map in Hk.
        assert (Es : nth_error (seq 0 (Z.to_nat n)) k = Some k). { rewrite (nth_error_nth' _ O) by (rewrite seq_length; lia). rewrite seq_nth by lia. reflexivity. }
        rewrite Es in Hk. cbn in Hk. injection Hk as <- <-. split; [apply formatID_file|]. exists s, gc. rewrite Nat.div_small by lia. auto.
      * rewrite nth_error_app2 in Hk by (rewrite map_length, seq_length; lia). rewrite map_length, seq_length in Hk. destruct (Hfl _ _ _ Hk) as [-> [s2 [r2 [Hn2 Hr2]]]].
        split; [do 2 f_equal; lia|]. exists s2, r2. split; [|exact Hr2].
        assert (Ek : (k / Z.to_nat n = S ((k - Z.to_nat n) / Z.to_nat n))%nat).
        { replace k with ((k - Z.to_nat n) + 1 * Z.to_nat n)%nat at 1 by lia. rewrite Nat.div_add by lia. lia. }
        rewrite Ek. exact Hn2.
    + intros ->. destruct (I4 eq_refl) as [fl [-> [Elen Hfl]]]. cbn [Z.eqb Pos.eqb] in Hfs. apply bind_ok in Hfs. destruct Hfs as [t [Ht Hfs]]. injection Hfs as <-.
      rewrite (K3 ltac:(lia)). eexists. split; [rewrite <- app_assoc; reflexivity|]. cbn [app List.length]. split; [lia|].
      intros k nm t0 Hk. destruct k as [|k]; cbn [nth_error] in Hk.
      * injection Hk as <- <-. exists s, gc. rewrite Enm. auto.
      * apply Hfl in Hk. exact Hk.
    + intros A B. rewrite (I5 A B). destruct (Z.eqb_spec sg 1); [contradiction|]. injection Hfs as <-. rewrite K3 by auto. reflexivity.
Qed.

(** Benchmark::run with newly made solvers: every run gives what the solver computes alone on
    the map, whatever ran before it; the files hold those results; the map ends cleaned. *)
Theorem C45_runs_are_independent :
  forall (b b' : bench N) (g g' : grid N),
  bench_run b g = Ok (b', g') -> honest g -> Forall fresh (b_solvers b) -> b_solvers b <> [] ->
  0 <= b_runID b -> 0 < b_nruns b -> b_runID b + b_nruns b * Z.of_nat (List.length (b_solvers b)) < 4294967296 ->
  g' = clean g /\
  (forall s, In s (b_solvers b) -> exists r, alone s g (b_init b) (b_goal b) r) /\
  (b_saveGrid b = 2 -> exists fl, b_files b' = b_files b ++ fl /\ Z.of_nat (List.length fl) = b_nruns b * Z.of_nat (List.length (b_solvers b)) /\
     forall k nm t, nth_error fl k = Some (nm, t) -> nm = formatID (b_runID b + 1 + Z.of_nat k) ++ str ".grid" /\
       exists s r, nth_error (b_solvers b) (k / Z.to_nat (b_nruns b)) = Some s /\ alone s g (b_init b) (b_goal b) r /\ saveGridValues showD r = Ok t) /\
  (b_saveGrid b = 1 -> exists fl, b_files b' = b_files b ++ fl /\ List.length fl = List.length (b_solvers b) /\
     forall k nm t, nth_error fl k = Some (nm, t) ->
       exists s r, nth_error (b_solvers b) k = Some s /\ nm = grid_file (bs_name s) /\ alone s g (b_init b) (b_goal b) r /\ saveGridValues showD r = Ok t) /\
  (b_saveGrid b <> 1 -> b_saveGrid b <> 2 -> b_files b' = b_files b).
Proof.
  intros b b' g g' H Hh Hf Hne H0 Hn Hlt. unfold BenchModel.bench_run in H.
  destruct (config_ready (b_solvers b) g (b_init b) (b_goal b) g Hh Hf (or_introl eq_refl)) as [l' [E Hr]]. rewrite E in H. cbn [bind] in H.
  destruct (b_solvers b) as [|s0 ss] eqn:Es; [contradiction|]. rewrite <- Es in *. clear Es.
  apply bind_ok in H. destruct H as [[[[[s2 g2] id] log] files] [H2 H]]. injection H as <- <-. cbn [b_files].
  destruct (run_solvers_ready _ _ _ _ _ _ _ _ _ _ _ _ _ _ _ Hr H2 H0 Hn Hlt) as [A [B [C [D F]]]].
  split; [exact A|]. split; [apply Forall_forall; exact B|]. auto.
Qed.

(** the solvers of the library this applies to *)
Lemma new_setup_false : sv_setup new_solver = false. Proof. reflexivity. Qed.

Theorem C45_fresh_fmm : forall (HO : HeapOps N) fuel h nm, fresh (mkBS (cFMM HO fuel) (fmm_new HO h) nm).
Proof.
  intros HO fuel h nm g init goal Hh. eexists. split; [reflexivity|]. split; [cbn; rewrite clean_clean; reflexivity|]. split.
  - eexists. cbn. unfold fmm_reset, solver_reset. cbn. rewrite clean_clean. split; reflexivity.
  - intros o1 g1. apply fmm_reset_compute; [apply clean_flag|apply clean_default; auto|reflexivity|reflexivity].
Qed.
Theorem C45_fresh_fsm : forall fuel m nm, fresh (mkBS (cFSM fuel) (fsm_new m) nm).
Proof.
  intros fuel m nm g init goal Hh. eexists. split; [reflexivity|]. split; [cbn; rewrite clean_clean; reflexivity|]. split.
  - eexists. cbn. unfold fsm_reset, solver_reset. cbn. rewrite clean_clean. split; reflexivity.
  - intros o1 g1. apply fsm_reset_compute; [apply clean_flag|apply clean_default; auto|reflexivity|reflexivity].
Qed.
Theorem C45_fresh_fim : forall fuel E nm, fresh (mkBS (cFIM fuel) (fim_new E) nm).
Proof.
  intros fuel m nm g init goal Hh. eexists. split; [reflexivity|]. split; [cbn; rewrite clean_clean; reflexivity|]. split.
  - eexists. cbn. unfold fim_reset, solver_reset. cbn. rewrite clean_clean. split; reflexivity.
  - intros o1 g1. apply fim_reset_compute; [apply clean_flag|apply clean_default; auto|reflexivity|reflexivity].
Qed.
Theorem C45_fresh_gmm : forall fuel dt nm, fresh (mkBS (cGMM fuel) (gmm_new dt) nm).
Proof.
  intros fuel m nm g init goal Hh. eexists. split; [reflexivity|]. split; [cbn; rewrite clean_clean; reflexivity|]. split.
  - eexists. cbn. unfold gmm_reset, solver_reset. cbn. rewrite clean_clean. split; reflexivity.
  - intros o1 g1. apply gmm_reset_compute; [apply clean_flag|apply clean_default; auto|reflexivity|reflexivity].
Qed.
Theorem C45_fresh_ufmm : forall fuel size inc nm, fresh (mkBS (cUFMM fuel) (ufmm_new size inc) nm).
Proof.
  intros fuel size inc nm g init goal Hh. eexists. split; [reflexivity|]. split; [cbn; rewrite clean_clean; reflexivity|]. split.
  - eexists. cbn. unfold ufmm_reset, solver_reset. cbn. rewrite clean_clean. split; [reflexivity|].
    unfold ufmm_setPoints. cbn. replace (uq_clear (uq_new size inc)) with (uq_new size inc); [reflexivity|].
    unfold uq_clear, uq_new. cbn. f_equal. generalize (Z.to_nat size) as k. induction k; cbn; congruence.
  - intros o1 g1. apply (ufmm_reset_compute size inc); [apply clean_flag|apply clean_default; auto|reflexivity|reflexivity].
Qed.
End B.

(** ** cases *)
Definition show_fin (x : F64) : text := if nltb x ninf then str "f" else str "i".
Definition case_grid : grid F64 := vgrid [3;2] (n1 : F64) [z64 1; z64 1; z64 1; z64 1; z64 1; z64 1].
Definition case_bench : bench F64 :=
  mkBench [mkBS (cFMM RefHeap 50) (fmm_new RefHeap NOHEUR) (str "FMM"); mkBS (cFSM 50) (fsm_new 1000) (str "FSM")] [0] (-1) 2 0 3 (str "b") [] [].
Example C45_case : exists b' g', bench_run show_fin (fun _ => str "t") case_bench case_grid = Ok (b', g') /\
  Forall fresh (b_solvers case_bench) /\ honest case_grid /\
  map fst (b_files b') = [str "0001.grid"; str "0002.grid"; str "0003.grid"; str "0004.grid"; str "0005.grid"; str "0006.grid"].
Proof.
  assert (K : match bench_run show_fin (fun _ => str "t") case_bench case_grid with Ok (b', _) => map fst (b_files b') | _ => [] end =
    [str "0001.grid"; str "0002.grid"; str "0003.grid"; str "0004.grid"; str "0005.grid"; str "0006.grid"]) by (vm_compute; reflexivity).
  destruct (bench_run show_fin (fun _ => str "t") case_bench case_grid) as [[b' g']|]; [|discriminate K]. exists b', g'. split; [reflexivity|].
  split; [constructor; [apply C45_fresh_fmm|constructor; [apply C45_fresh_fsm|constructor]]|]. split; [|exact K].
  intros _ i c Hc. unfold case_grid, vgrid, with_cells, getCell in Hc. cbn [g_cells] in Hc. apply vget_ok in Hc. destruct Hc as [_ Hc].
  apply nth_error_In in Hc. cbn in Hc. repeat (destruct Hc as [<-|Hc]; [cbn; auto|]). destruct Hc.
Qed.

(** A locking sweeping solver that runs first spoils the map for the next one: the FMM after it
    saves infinite times, alone it saves finite ones. *)
Definition spoil_bench : bench F64 :=
  mkBench [mkBS (cLSM 50) (fsm_new 1000) (str "LSM"); mkBS (cFMM RefHeap 50) (fmm_new RefHeap NOHEUR) (str "FMM")] [0] (-1) 2 0 1 (str "b") [] [].
Definition spoil_alone : bench F64 :=
  mkBench [mkBS (cFMM RefHeap 50) (fmm_new RefHeap NOHEUR) (str "FMM")] [0] (-1) 2 0 1 (str "b") [] [].
Theorem C45_lsm_spoils_the_next_solver :
  exists b1 g1 b2 g2 t1 t2 x, bench_run show_fin (fun _ => str "t") spoil_bench case_grid = Ok (b1, g1) /\
    bench_run show_fin (fun _ => str "t") spoil_alone case_grid = Ok (b2, g2) /\
    b_files b1 = [x; (str "0002.grid", t1)] /\ b_files b2 = [(str "0001.grid", t2)] /\ t1 <> t2.
Proof.
  assert (K : match bench_run show_fin (fun _ => str "t") spoil_bench case_grid, bench_run show_fin (fun _ => str "t") spoil_alone case_grid with
    Ok (b1, _), Ok (b2, _) => match b_files b1, b_files b2 with
       [_; (n1, t1)], [(n2, t2)] => (if list_eq_dec Ascii.ascii_dec n1 (str "0002.grid") then true else false) && (if list_eq_dec Ascii.ascii_dec n2 (str "0001.grid") then true else false)
          && (if list_eq_dec Ascii.ascii_dec t1 t2 then false else true)
       | _, _ => false end | _, _ => false end = true) by (vm_compute; reflexivity).
  destruct (bench_run show_fin (fun _ => str "t") spoil_bench case_grid) as [[b1 g1]|]; [|discriminate K].
  destruct (bench_run show_fin (fun _ => str "t") spoil_alone case_grid) as [[b2 g2]|]; [|discriminate K].
  exists b1, g1, b2, g2. destruct (b_files b1) as [|x [|[m1 t1] [|]]]; try discriminate K. destruct (b_files b2) as [|[m2 t2] [|]]; try discriminate K.
  exists t1, t2, x. destruct (list_eq_dec Ascii.ascii_dec m1 (str "0002.grid")) as [->|]; [|discriminate K].
  destruct (list_eq_dec Ascii.ascii_dec m2 (str "0001.grid")) as [->|]; [|discriminate K].
  destruct (list_eq_dec Ascii.ascii_dec t1 t2) as [|Ht]; [discriminate K|]. auto 10.
Qed.

Print Assumptions C45_log.
Print Assumptions C45_runs_are_independent.

(** Prop_ScriptLog.v - property theorems C97: the benchmark log as parseBenchmarkLog.m reads
    it; and the cases of C94-C97. *)
From Coq Require Import Ascii String.
From Verif Require Import Base BaseFacts Num NumF64 Grid GridFacts GridMore GridUpd Spec Obs NumLaws Examples TextModel TextFacts IOModel IOFacts Prop_IO
  ScriptModel ScriptFacts Prop_Scripts Prop_ScriptPath FMMModel HeapRef SweepModel QueueModel UntidyModel SolverModel BenchModel Prop_Bench.
Open Scope Z_scope.
Open Scope list_scope.

(** ** texts that are fields with single spaces between them *)
Lemma collapse_word t r : Forall (fun c => is_space c = false) t -> collapse (t ++ r) = t ++ collapse r.
Proof. induction 1 as [|c t Hc _ IH]; [reflexivity|]. cbn [app collapse]. rewrite Hc, IH. reflexivity. Qed.
Lemma split_log_none t : Forall (fun c => is_space c = false) t -> split_log t = [t].
Proof.
  induction 1 as [|c t Hc _ IH]; [reflexivity|]. cbn [split_log]. rewrite IH.
  destruct (Ascii.eqb_spec c tab) as [->|]; [discriminate Hc|]. destruct (Ascii.eqb_spec c newline) as [->|]; [discriminate Hc|]. reflexivity.
Qed.
Lemma split_log_cut t r : Forall (fun c => is_space c = false) t -> split_log (t ++ tab :: r) = t :: split_log r.
Proof.
  induction 1 as [|c t Hc _ IH]; [reflexivity|]. cbn [app split_log]. rewrite IH.
  destruct (Ascii.eqb_spec c tab) as [->|]; [discriminate Hc|]. destruct (Ascii.eqb_spec c newline) as [->|]; [discriminate Hc|]. reflexivity.
Qed.
Definition joined (l : list (ascii * text)) : text := flat_map (fun e => fst e :: snd e) l.
Lemma split_joined t l : Forall (fun c => is_space c = false) t -> Forall (fun e => is_space (fst e) = true /\ is_token (snd e)) l ->
  split_log (collapse (t ++ joined l)) = t :: map snd l.
Proof.
  intros Ht Hl. revert t Ht. induction Hl as [|[c w] l [Hc [Hne Hw]] _ IH]; intros t Ht.
  - cbn [joined flat_map map]. rewrite app_nil_r. rewrite <- (app_nil_r t), collapse_word by exact Ht. cbn [collapse]. rewrite app_nil_r. apply split_log_none. exact Ht.
  - rewrite collapse_word by exact Ht. cbn [fst snd] in *. cbn [joined flat_map map fst snd app]. fold (joined l).
    assert (E : collapse (c :: w ++ joined l) = tab :: collapse (w ++ joined l)).
    { cbn [collapse]. rewrite Hc. destruct w as [|c' w]; [contradiction|]. cbn [app]. inversion Hw as [|? ? Hc' _]; subst. rewrite Hc'. reflexivity. }
    rewrite E, split_log_cut by exact Ht. rewrite IH by exact Hw. reflexivity.
Qed.
Lemma tab_shift (A : Type) (f : A -> text) l r : tab :: flat_map (fun x => f x ++ [tab]) l ++ r = joined (map (fun x => (tab, f x)) l) ++ tab :: r.
Proof. induction l as [|x l IH]; [reflexivity|]. cbn [flat_map map joined fst snd app]. fold (joined (map (fun x => (tab, f x)) l)). rewrite <- !app_assoc. cbn [app]. rewrite IH. reflexivity. Qed.
Lemma joined_app a b : joined (a ++ b) = joined a ++ joined b.
Proof. apply flat_map_app. Qed.

(** ** reading positions *)
Lemma nth_at (A : Type) (pre : list A) x post k : k = List.length pre -> nth_error (pre ++ x :: post) k = Some x.
Proof. intros ->. rewrite nth_error_app2, Nat.sub_diag by lia. reflexivity. Qed.
Lemma nth_three (A : Type) (f1 f2 f3 : A -> text) l k x : nth_error l k = Some x ->
  nth_error (flat_map (fun e => [f1 e; f2 e; f3 e]) l) (k * 3 + 1) = Some (f2 x) /\ nth_error (flat_map (fun e => [f1 e; f2 e; f3 e]) l) (k * 3 + 2) = Some (f3 x).
Proof.
  revert k. induction l as [|a l IH]; intros [|k] H; try discriminate.
  - injection H as ->. split; reflexivity.
  - cbn [nth_error] in H. destruct (IH k H) as [H1 H2]. cbn [flat_map app]. split; [exact H1|exact H2].
Qed.
Lemma len_three (A : Type) (f1 f2 f3 : A -> text) l : List.length (flat_map (fun e => [f1 e; f2 e; f3 e]) l) = (3 * List.length l)%nat.
Proof. induction l as [|a l IH]; [reflexivity|]. cbn [flat_map app List.length]. rewrite IH. lia. Qed.

Lemma formatID_token id : is_token (formatID id).
Proof.
  destruct (showU_token id) as [H1 H2]. unfold formatID. split; [destruct (repeat "0"%char (4 - List.length (showU id))); [exact H1|discriminate]|].
  apply Forall_app. split; [|exact H2]. apply Forall_forall. intros c Hc. apply repeat_spec in Hc. subst c. reflexivity.
Qed.

Section L.
Context {N : Num} {T : Type} (showD : N -> text) (timeOf : Z -> text) (str2double : text -> option T).

(** setEnvironment leaves the dimensions of the map alone *)
Definition keeps_dims (s : bsolver N) : Prop :=
  forall o g o' g', sc_env (bs_class s) o (Some g) = Ok (o', g') -> s_dims (g_sh g') = s_dims (g_sh g).
Lemma clean_dims (g : grid N) : s_dims (g_sh (clean g)) = s_dims (g_sh g).
Proof. unfold clean. destruct (g_clean g); reflexivity. Qed.
Theorem C97_library_solvers_keep_dims : forall s : bsolver N,
  (exists HO fuel, bs_class s = cFMM HO fuel) \/ (exists fuel, bs_class s = cFSM fuel \/ bs_class s = cLSM fuel \/ bs_class s = cDDQM fuel \/ bs_class s = cFIM fuel \/ bs_class s = cGMM fuel \/ bs_class s = cUFMM fuel) ->
  keeps_dims s.
Proof.
  intros [c o nm] H. unfold keeps_dims. cbn [bs_class] in *.
  destruct H as [[HO [fuel ->]]|[fuel [->|[->|[->|[->|[->| ->]]]]]]]; cbn; intros o0 g o' g' H;
    unfold fmm_setEnvironment, fsm_setEnvironment, ddqm_setEnvironment, fim_setEnvironment, gmm_setEnvironment, ufmm_setEnvironment, setEnvironment in H; cbn [bind] in H;
    try (inversion H; subst; apply clean_dims).
Qed.

Lemma config_dims : forall l init goal (g : grid N) l' g', Forall keeps_dims l -> configSolvers l init goal g = Ok (l', g') -> s_dims (g_sh g') = s_dims (g_sh g).
Proof.
  induction l as [|s l IH]; intros init goal g l' g' Hk H; cbn [configSolvers] in H; [injection H as <- <-; reflexivity|].
  inversion Hk as [|? ? H1 H2]; subst. apply bind_ok in H. destruct H as [[o g1] [E1 H]]. apply bind_ok in H. destruct H as [[r1 g2] [E2 H]]. injection H as <- <-.
  rewrite (IH _ _ _ _ _ H2 E2). exact (H1 _ _ _ _ E1).
Qed.

(** The fields of a log: the header, then three per run. *)
Lemma log_fields (b : bench N) (gc : grid N) (runs : list (Z * text)) :
  Forall (fun c => is_space c = false) (b_name b) -> (forall e, In e runs -> is_token (snd e) /\ is_token (timeOf (fst e))) ->
  split_log (collapse (logConfig b gc ++ flat_map (fun e => newline :: formatID (fst e) ++ [tab] ++ snd e ++ [tab] ++ timeOf (fst e)) runs)) =
  b_name b :: showU (b_nruns b) :: showU (Z.of_nat (List.length (s_dims (g_sh gc)))) :: map showU (s_dims (g_sh gc)) ++
  showU (Z.of_nat (List.length (b_init b))) :: map showU (b_init b) ++ (if s32 (b_goal b) =? -1 then str "nan" else showU (b_goal b)) ::
  flat_map (fun e => [formatID (fst e); snd e; timeOf (fst e)]) runs.
Proof.
  intros Hn Hr. set (gt := if s32 (b_goal b) =? -1 then str "nan" else showU (b_goal b)).
  set (E := joined ((tab, showU (b_nruns b)) :: (tab, showU (Z.of_nat (List.length (s_dims (g_sh gc))))) :: map (fun d => (tab, showU d)) (s_dims (g_sh gc)) ++
            (tab, showU (Z.of_nat (List.length (b_init b)))) :: map (fun d => (tab, showU d)) (b_init b) ++ (tab, gt) ::
            flat_map (fun e => [(newline, formatID (fst e)); (tab, snd e); (tab, timeOf (fst e))]) runs)).
  match goal with |- split_log (collapse ?t) = _ => assert (Et : t = b_name b ++ E) end.
  { unfold logConfig. fold gt. repeat (rewrite <- app_assoc; cbn [app]). f_equal. unfold E. cbn [joined flat_map fst snd app]. do 2 f_equal. cbn [app].
    f_equal. f_equal.
    match goal with |- ?a = flat_map ?f ?l => change (a = joined l) end.
    rewrite tab_shift, joined_app. f_equal. cbn [joined flat_map fst snd app]. f_equal. f_equal.
    match goal with |- ?a = flat_map ?f ?l => change (a = joined l) end. rewrite tab_shift, joined_app. f_equal.
    cbn [joined flat_map fst snd app]. f_equal. f_equal.
    clear. induction runs as [|e runs IH]; [reflexivity|]. cbn [flat_map fst snd app]. rewrite IH. cbn [flat_map fst snd app]. repeat (rewrite <- app_assoc; cbn [app]). reflexivity. }
  rewrite Et. unfold E. rewrite split_joined; [|exact Hn|].
  - cbn [map snd]. do 3 f_equal. rewrite map_app, map_map. cbn [map snd]. f_equal. f_equal. rewrite map_app, map_map. cbn [map snd]. f_equal. f_equal.
    clear. induction runs as [|e runs IH]; [reflexivity|]. cbn [flat_map app map snd]. rewrite IH. reflexivity.
  - assert (Hg : is_token gt).
    { unfold gt. destruct (s32 (b_goal b) =? -1); [|apply showU_token]. split; [discriminate|repeat constructor]. }
    assert (Hd : forall l, Forall (fun e : ascii * text => is_space (fst e) = true /\ is_token (snd e)) (map (fun d => (tab, showU d)) l)).
    { intros l. apply Forall_forall. intros e He. apply in_map_iff in He. destruct He as [d [<- _]]. split; [reflexivity|apply showU_token]. }
    constructor; [split; [reflexivity|apply showU_token]|]. constructor; [split; [reflexivity|apply showU_token]|]. apply Forall_app. split; [apply Hd|].
    constructor; [split; [reflexivity|apply showU_token]|]. apply Forall_app. split; [apply Hd|]. constructor; [split; [reflexivity|exact Hg]|].
    clear - Hr. induction runs as [|e runs IH]; [constructor|]. cbn [flat_map app]. destruct (Hr e (or_introl eq_refl)) as [H1 H2].
    constructor; [split; [reflexivity|apply formatID_token]|]. constructor; [split; [reflexivity|exact H1]|]. constructor; [split; [reflexivity|exact H2]|].
    apply IH. intros x Hx. apply Hr. right. exact Hx.
Qed.

(** Reading the log of a benchmark gives back its configuration and, for every solver in
    order, its name and the times of its runs; provided no name or time contains a space. *)
Theorem C97_benchmark_log : forall (b b' : bench N) (g g' : grid N),
  bench_run showD timeOf b g = Ok (b', g') ->
  0 <= b_runID b -> 0 < b_nruns b < 4294967296 -> b_runID b + b_nruns b * Z.of_nat (List.length (b_solvers b)) < 4294967296 ->
  b_log b = [] -> Forall keeps_dims (b_solvers b) ->
  Z.of_nat (List.length (s_dims (g_sh g))) < 4294967296 -> Forall (fun d => 0 <= d < 4294967296) (s_dims (g_sh g)) ->
  Z.of_nat (List.length (b_init b)) < 4294967296 -> Forall (fun i => 0 <= i < 4294967296) (b_init b) -> 0 <= b_goal b < 4294967296 ->
  Forall (fun c => is_space c = false) (b_name b) -> Forall (fun s => is_token (bs_name s)) (b_solvers b) -> (forall id, is_token (timeOf id)) ->
  exists ml, parseBenchmarkLog str2double (b_log b') = Ok ml /\
    ml_name ml = b_name b /\ ml_nruns ml = b_nruns b /\ ml_ndims ml = Z.of_nat (List.length (s_dims (g_sh g))) /\ ml_dims ml = s_dims (g_sh g) /\
    ml_start ml = b_init b /\ ml_goal ml = (if b_goal b =? noGoal then None else Some (b_goal b)) /\
    ml_nexp ml = b_nruns b * Z.of_nat (List.length (b_solvers b)) /\
    ml_exp ml = map (fun ks => (bs_name (snd ks), map (fun j => str2double (timeOf (b_runID b + 1 + fst ks * b_nruns b + j))) (zseq (Z.to_nat (b_nruns b)))))
                    (combine (zseq (List.length (b_solvers b))) (b_solvers b)).
Proof.
  intros b b' g g' H H0 Hn Hlt Hlog Hkeep Hnd Hd Hni Hi Hgoal Hname Hnames Htime.
  unfold bench_run in H. apply bind_ok in H. destruct H as [[ss g1] [H1 H]].
  apply bind_ok in H. destruct H as [[[[[s2 g2] id] log] files] [H2 H]]. injection H as <- <-.
  pose proof (configSolvers_names _ _ _ _ _ _ H1) as En. assert (El : List.length ss = List.length (b_solvers b)) by (rewrite <- (map_length bs_name ss), En, map_length; reflexivity).
  pose proof (config_dims _ _ _ _ _ _ Hkeep H1) as Edims.
  apply run_solvers_log in H2; [|lia|lia|rewrite El; lia]. destruct H2 as [_ [_ E3]]. cbn [b_log].
  assert (Ef : flat_map (fun s => repeat (bs_name s) (Z.to_nat (b_nruns b))) ss = flat_map (fun s => repeat (bs_name s) (Z.to_nat (b_nruns b))) (b_solvers b)).
  { clear - En. revert En. generalize (b_solvers b) as l. induction ss as [|s ss IH]; intros l En; destruct l as [|p l]; cbn in En; try discriminate; [reflexivity|].
    injection En as E En. cbn [flat_map]. rewrite E, (IH _ En). reflexivity. }
  rewrite Ef in E3. set (L := flat_map (fun s => repeat (bs_name s) (Z.to_nat (b_nruns b))) (b_solvers b)) in *. rewrite Hlog in E3. cbn [app] in E3.
  assert (ELL : List.length L = (Z.to_nat (b_nruns b) * List.length (b_solvers b))%nat).
  { unfold L. clear. induction (b_solvers b) as [|s l IH]; cbn [flat_map List.length]; [lia|]. rewrite app_length, repeat_length, IH. lia. }
  assert (HL : forall nm, In nm L -> is_token nm).
  { intros nm Hin. unfold L in Hin. apply in_flat_map in Hin. destruct Hin as [s [Hs Hin]]. apply repeat_spec in Hin. subst nm. rewrite Forall_forall in Hnames. auto. }
  assert (Hfields := log_fields b g1 (numbered (b_runID b) L) Hname).
  assert (Hfields' := Hfields ltac:(intros [i nm] Hin; cbn [fst snd]; split; [apply HL; unfold numbered in Hin; eapply in_combine_r; exact Hin|apply Htime])). clear Hfields.
  rewrite Edims in Hfields'. unfold parseBenchmarkLog. unfold lines, log_line in E3. rewrite E3, Hfields'. clear Hfields' E3.
  set (dims := s_dims (g_sh g)) in *. set (gt := if s32 (b_goal b) =? -1 then str "nan" else showU (b_goal b)) in *.
  set (body := flat_map (fun e => [formatID (fst e); snd e; timeOf (fst e)]) (numbered (b_runID b) L)).
  set (txt := b_name b :: showU (b_nruns b) :: showU (Z.of_nat (List.length dims)) :: map showU dims ++ showU (Z.of_nat (List.length (b_init b))) :: map showU (b_init b) ++ gt :: body).
  cbn [nth_error must bind]. unfold hint at 1. change (Z.to_nat (2 - 1)) with 1%nat. cbn [nth_error txt must bind]. rewrite readU_showU by lia. cbn [must bind].
  unfold hint at 1. change (Z.to_nat (3 - 1)) with 2%nat. cbn [nth_error txt must bind]. rewrite readU_showU by lia. cbn [must bind]. fold txt.
  rewrite Nat2Z.id.
  assert (Edm : mapM (fun i => hint txt (i + 4)) (zseq (List.length dims)) = Ok dims).
  { rewrite (mapM_nth _ _ _ (fun d => d)); [rewrite map_id; reflexivity|]. intros k d Hk. unfold hint. replace (Z.to_nat (Z.of_nat k + 4 - 1)) with (S (S (S k))) by lia. cbn [nth_error txt].
    rewrite (nth_app_map _ _ _ _ _ _ d Hk). cbn [must bind]. rewrite Forall_forall in Hd. rewrite readU_showU by (apply Hd; eapply nth_error_In; exact Hk). reflexivity. }
  rewrite Edm. cbn [bind].
  assert (Ens : hint txt (4 + Z.of_nat (List.length dims)) = Ok (Z.of_nat (List.length (b_init b)))).
  { unfold hint. replace (Z.to_nat (4 + Z.of_nat (List.length dims) - 1)) with (S (S (S (List.length dims)))) by lia. cbn [nth_error txt].
    rewrite nth_at by (rewrite map_length; reflexivity). cbn [must bind]. rewrite readU_showU by lia. reflexivity. }
  rewrite Ens. cbn [bind]. rewrite Nat2Z.id.
  assert (Est : mapM (fun i => hint txt (5 + Z.of_nat (List.length dims) + i)) (zseq (List.length (b_init b))) = Ok (b_init b)).
  { rewrite (mapM_nth _ _ _ (fun d => d)); [rewrite map_id; reflexivity|]. intros k d Hk. unfold hint.
    replace (Z.to_nat (5 + Z.of_nat (List.length dims) + Z.of_nat k - 1)) with (S (S (S (List.length dims + S k)))) by lia. cbn [nth_error txt].
    rewrite nth_error_app2 by (rewrite map_length; lia). rewrite map_length. replace (List.length dims + S k - List.length dims)%nat with (S k) by lia. cbn [nth_error].
    rewrite (nth_app_map _ _ _ _ _ _ d Hk). cbn [must bind]. rewrite Forall_forall in Hi. rewrite readU_showU by (apply Hi; eapply nth_error_In; exact Hk). reflexivity. }
  rewrite Est. cbn [bind].
  set (hs := 5 + Z.of_nat (List.length dims) + Z.of_nat (List.length (b_init b))).
  assert (Hbody : forall k, nth_error txt (Z.to_nat (hs + Z.of_nat k)) = nth_error body k).
  { intros k. replace (Z.to_nat (hs + Z.of_nat k)) with (S (S (S (List.length dims + S (List.length (b_init b) + S k))))) by (unfold hs; lia). cbn [nth_error txt].
    rewrite nth_error_app2 by (rewrite map_length; lia). rewrite map_length. replace (List.length dims + S (List.length (b_init b) + S k) - List.length dims)%nat with (S (List.length (b_init b) + S k)) by lia.
    cbn [nth_error]. rewrite nth_error_app2 by (rewrite map_length; lia). rewrite map_length. replace (List.length (b_init b) + S k - List.length (b_init b))%nat with (S k) by lia. reflexivity. }
  assert (Egt : nth_error txt (Z.to_nat (hs - 1)) = Some gt).
  { replace (Z.to_nat (hs - 1)) with (S (S (S (List.length dims + S (List.length (b_init b)))))) by (unfold hs; lia). cbn [nth_error txt].
    rewrite nth_error_app2 by (rewrite map_length; lia). rewrite map_length. replace (List.length dims + S (List.length (b_init b)) - List.length dims)%nat with (S (List.length (b_init b))) by lia.
    cbn [nth_error]. apply nth_at. rewrite map_length. reflexivity. }
  rewrite Egt. cbn [must bind].
  assert (Hnum : List.length (numbered (b_runID b) L) = List.length L) by (unfold numbered; rewrite combine_length, map_length, seq_length, Nat.min_id; reflexivity).
  assert (Hlen : Z.of_nat (List.length txt) - hs = (b_nruns b * Z.of_nat (List.length (b_solvers b))) * 3).
  { unfold txt, hs. cbn [List.length]. rewrite app_length, map_length. cbn [List.length]. rewrite app_length, map_length. cbn [List.length]. unfold body. rewrite len_three, Hnum, ELL. nia. }
  rewrite Hlen. rewrite Z.mod_mul by lia. cbn [Z.eqb negb]. rewrite Z.div_mul by lia.
  destruct (Z.eqb_spec (b_nruns b) 0); [lia|]. rewrite (Z.mul_comm (b_nruns b)). rewrite Z.mod_mul by lia. cbn [Z.eqb negb orb]. rewrite Z.div_mul by lia. rewrite Nat2Z.id.
  assert (Hrun : forall i j s, nth_error (b_solvers b) i = Some s -> (j < Z.to_nat (b_nruns b))%nat ->
     nth_error (numbered (b_runID b) L) (i * Z.to_nat (b_nruns b) + j) = Some (b_runID b + 1 + Z.of_nat (i * Z.to_nat (b_nruns b) + j), bs_name s)).
  { intros i j s Hs Hj. rewrite nth_numbered. assert (E : nth_error L (i * Z.to_nat (b_nruns b) + j) = Some (bs_name s)).
    { unfold L. apply nth_flat_repeat; [lia|]. exists s. split; [|reflexivity]. rewrite Nat.add_comm, Nat.div_add by lia. rewrite Nat.div_small by lia. exact Hs. }
    rewrite E. reflexivity. }
  match goal with |- context [mapM ?F (zseq (List.length (b_solvers b)))] =>
    assert (EX : mapM F (zseq (List.length (b_solvers b))) =
      Ok (map (fun ks => (bs_name (snd ks), map (fun j => str2double (timeOf (b_runID b + 1 + fst ks * b_nruns b + j))) (zseq (Z.to_nat (b_nruns b))))) (combine (zseq (List.length (b_solvers b))) (b_solvers b)))) end.
  { rewrite (mapM_all _ _ _ (fun i => (match nth_error (b_solvers b) (Z.to_nat i) with Some s => bs_name s | None => [] end,
        map (fun j => str2double (timeOf (b_runID b + 1 + i * b_nruns b + j))) (zseq (Z.to_nat (b_nruns b)))))).
    - f_equal. assert (K : forall l s, (forall k x, nth_error l k = Some x -> nth_error (b_solvers b) (s + k) = Some x) ->
        map (fun i => (match nth_error (b_solvers b) (Z.to_nat i) with Some s => bs_name s | None => [] end, map (fun j => str2double (timeOf (b_runID b + 1 + i * b_nruns b + j))) (zseq (Z.to_nat (b_nruns b))))) (map Z.of_nat (seq s (List.length l))) =
        map (fun ks => (bs_name (snd ks), map (fun j => str2double (timeOf (b_runID b + 1 + fst ks * b_nruns b + j))) (zseq (Z.to_nat (b_nruns b))))) (combine (map Z.of_nat (seq s (List.length l))) l)).
      { clear. induction l as [|x l IH]; intros s Hl; [reflexivity|]. cbn [List.length seq map combine fst snd]. rewrite Nat2Z.id. pose proof (Hl O x eq_refl) as E. rewrite Nat.add_0_r in E. rewrite E. f_equal.
        apply IH. intros k y Hk. replace (S s + k)%nat with (s + S k)%nat by lia. apply Hl. exact Hk. }
      apply (K (b_solvers b) O). auto.
    - intros i Hin. apply in_zseq in Hin. destruct (nth_error (b_solvers b) (Z.to_nat i)) as [s|] eqn:Es; [|apply nth_error_None in Es; lia].
      pose proof (Hrun (Z.to_nat i) O s Es ltac:(lia)) as E0. rewrite Nat.add_0_r in E0.
      destruct (nth_three _ (fun e => formatID (fst e)) snd (fun e => timeOf (fst e)) _ _ _ E0) as [E1 _]. fold body in E1. cbn [snd] in E1.
      replace (Z.to_nat (hs + i * b_nruns b * 3 + 1)) with (Z.to_nat (hs + Z.of_nat (Z.to_nat i * Z.to_nat (b_nruns b) * 3 + 1))) by nia. rewrite Hbody, E1. cbn [must bind].
      rewrite (mapM_all _ _ _ (fun j => str2double (timeOf (b_runID b + 1 + i * b_nruns b + j)))); [reflexivity|].
      intros j Hj. apply in_zseq in Hj. pose proof (Hrun (Z.to_nat i) (Z.to_nat j) s Es ltac:(lia)) as E4.
      destruct (nth_three _ (fun e => formatID (fst e)) snd (fun e => timeOf (fst e)) _ _ _ E4) as [_ E5]. fold body in E5. cbn [fst] in E5.
      replace (Z.to_nat (hs + (i * b_nruns b + j) * 3 + 2)) with (Z.to_nat (hs + Z.of_nat ((Z.to_nat i * Z.to_nat (b_nruns b) + Z.to_nat j) * 3 + 2))) by nia. rewrite Hbody, E5. cbn [must bind].
      match goal with |- Ok (str2double (timeOf ?u)) = Ok (str2double (timeOf ?v)) => replace u with v by nia; reflexivity end. }
  rewrite EX. cbn [bind]. eexists. split; [reflexivity|]. cbn [ml_name ml_nruns ml_ndims ml_dims ml_start ml_goal ml_nexp ml_exp].
  repeat (split; [reflexivity|]). split; [|split; [lia|reflexivity]].
  unfold gt. destruct (Z.eqb_spec (b_goal b) noGoal) as [Eg|Eg].
  - rewrite Eg. reflexivity.
  - assert (E : s32 (b_goal b) =? -1 = false). { apply Z.eqb_neq. unfold noGoal in Eg. unfold s32, u32. rewrite Z.mod_small by lia. cbv zeta. destruct (Z.ltb_spec (b_goal b) 2147483648); lia. }
    rewrite E. apply readU_showU. lia.
Qed.
End L.

(** ** cases *)
Definition ms_read (t : text) : option F64 :=
  if text_eqb t (str "1.0") then Some n1 else match readU 4294967296 t with Some n => Some (nofZ n) | None => None end.
Lemma ms_counts : reads_counts ms_read.
Proof.
  intros n Hn. unfold ms_read. destruct (text_eqb (showU n) (str "1.0")); [eauto|]. rewrite readU_showU by exact Hn. eauto.
Qed.
Lemma ms_writes x : writes ex_show ms_read ex_rnd x.
Proof.
  unfold writes, ex_show, ex_rnd. destruct (neqb x n0); (split; [discriminate|split; [intros ch [<-|[]]; reflexivity|reflexivity]]).
Qed.
Definition bools (l : list (option F64)) : list Z := map (fun o => match o with Some x => if neqb x n0 then 0 else 1 | None => -1 end) l.

(** a 2x3 grid with obstacles at cells 1 = (1,0) and 4 = (0,2): in Matlab they are at (1,2) and (3,1) *)
Example C94_case : grid_ok [2; 3] ex_io_grid /\ reads_counts ms_read /\ (forall x, writes ex_show ms_read ex_rnd x) /\
  (file <- saveVelocities ex_show ex_io_grid ;; mg <- parseGrid ms_read file ;;
   Ok (m_size (mg_cells mg), bools [m_at (mg_cells mg) [1; 2]; m_at (mg_cells mg) [3; 1]; m_at (mg_cells mg) [2; 1]; m_at (mg_cells mg) [1; 3]])) =
  Ok ([3; 2], [0; 0; 1; -1]).
Proof. split; [split; reflexivity|]. split; [exact ms_counts|]. split; [exact ms_writes|]. vm_compute. reflexivity. Qed.

(** through Matlab and back: the obstacles (1,0) and (0,2) are now (0,1) and (2,0) of a 3x2 map *)
Example C95_case : array_ok ms_read ex_show ex_rnd (mkM [2; 3] [n1; n0; n1; n1; n0; n1]) /\
  is_token (str "1.0") /\ ms_read (str "1.0") = Some n1 /\
  (file <- saveVelocities ex_show ex_io_grid ;; mg <- parseGrid ms_read file ;;
   '(k, g) <- loadMapFromText ms_read 2 (Some (saveGridToFile ex_show ex_show (mg_cells mg) None)) (new_grid [1; 1] n1) ;; Ok (k, s_dims (g_sh g), g_obs g)) = Ok (1, [3; 2], [2; 3]) /\
  match loadMapFromText ms_read 3 (Some (saveGridToFile ex_show ex_show (mkM [2; 2; 1] [n1; n1; n0; n1]) None)) (new_grid [1; 1; 1] n1) with Fail (Exit k) => k =? 1 | _ => false end = true.
Proof.
  split.
  - split; [cbn; lia|]. split; [cbn; lia|]. split; [repeat constructor; lia|]. split; [cbn; lia|]. split; [reflexivity|]. intros x _. apply ms_writes.
  - split; [split; [discriminate|repeat constructor]|]. split; [reflexivity|]. split; vm_compute; reflexivity.
Qed.

(** three points in two dimensions: parsepath.m reads them; parsepathvel.m adds a row of
    zeros, or fails where sizes must be whole *)
Definition rows_of (l : list (list F64)) : list (list Z) := map (map (fun x => if neqb x (nofZ 2) then 2 else if neqb x n1 then 1 else if neqb x n0 then 0 else -1)) l.
Example C96_case :
  let g := new_grid [3; 2] (n1 : F64) in let path := [[n1; n0]; [n1; n1]; [n0; n0]] : list (list F64) in
  s_dims (g_sh g) = [3; 2] /\ Forall (fun p => List.length p = 2%nat /\ forall x, In x p -> writes ex_show ms_read ex_rnd x) path /\
  (p <- parsepath ms_read true (savePath ex_show g path) ;; Ok (rows_of p)) = Ok [[2; 1]; [2; 2]; [1; 1]] /\
  (t <- savePathVelocity ex_show g path [n1; n0; n1] ;; '(p, v) <- parsepathvel ms_read false t ;; Ok (rows_of p, rows_of [v])) = Ok ([[2; 1]; [2; 2]; [1; 1]; [0; 0]], [[1; 0; 1]]) /\
  match (t <- savePathVelocity ex_show g path [n1; n0; n1] ;; parsepathvel ms_read true t) with Fail (Exit k) => k =? 1 | _ => false end = true /\
  idx2coord (mk_shape [3; 2]) 4 = Ok [1; 1] /\ idx2coord_m [3; 2] 4 = Ok [2; 2].
Proof.
  cbv zeta. split; [reflexivity|]. split; [repeat (constructor; [split; [reflexivity|intros; apply ms_writes]|]); constructor|]. repeat split; vm_compute; reflexivity.
Qed.

(** two solvers, three runs each, no goal *)
Definition mlog_bench (name s1 : text) : bench F64 :=
  mkBench [mkBS (cFMM RefHeap 50) (fmm_new RefHeap NOHEUR) s1; mkBS (cFSM 50) (fsm_new 1000) (str "FSM")] [0; 2] 4294967295 0 0 3 name [] [].
Definition mlog_of (name s1 : text) : res (mlog (T := Z)) :=
  '(b', _) <- bench_run show_fin (fun id => showU (10 * id)) (mlog_bench name s1) case_grid ;; parseBenchmarkLog (readU 4294967296) (b_log b').
Example C97_case :
  Forall keeps_dims (b_solvers (mlog_bench (str "b") (str "FMM"))) /\ Forall (fun s => is_token (bs_name s)) (b_solvers (mlog_bench (str "b") (str "FMM"))) /\
  mlog_of (str "b") (str "FMM") = Ok (mkLog (str "b") 3 2 [3; 2] [0; 2] None 6 [(str "FMM", [Some 10; Some 20; Some 30]); (str "FSM", [Some 40; Some 50; Some 60])]).
Proof.
  split; [constructor; [apply C97_library_solvers_keep_dims; left; eexists _, _; reflexivity|constructor; [apply C97_library_solvers_keep_dims; right; eexists; left; reflexivity|constructor]]|].
  split; [repeat (constructor; [split; [discriminate|repeat constructor]|]); constructor|]. vm_compute. reflexivity.
Qed.

(** A space in a name is fatal or, worse, not: the fields are shifted.  A space in the name of
    the benchmark or of a solver makes this log unreadable; three of them in a solver's name
    give three solvers instead of two, with wrong names and times. *)
Theorem C97_names_with_spaces :
  mlog_of (str "my bench") (str "FMM") = Fail (Exit 1) /\
  mlog_of (str "b") (str "Fast Marching") = Fail (Exit 1) /\
  exists ml, mlog_of (str "b") (str "Fast Marching Method 1") = Ok ml /\ ml_nexp ml = 9 /\
    ml_exp ml = [(str "Fast", [None; Some 10; None]); (str "1", [Some 20; None; Some 30]); (str "FSM", [Some 40; Some 50; Some 60])].
Proof.
  split; [vm_compute; reflexivity|]. split; [vm_compute; reflexivity|]. eexists. split; [vm_compute; reflexivity|]. split; reflexivity.
Qed.

Print Assumptions C95_through_matlab_and_back.
Print Assumptions C96_parse_path_and_velocity.
Print Assumptions C97_benchmark_log.

(** Prop_Cfg.v - property theorems C98: the program fm_benchmark. *)
From Coq Require Import Ascii String.
From Verif Require Import Base BaseFacts Num NumF64 Grid GridFacts GridMore GridUpd Spec Obs NumLaws Examples TextModel TextFacts TextSpec Prop_Text IOModel IOFacts Prop_IO
  ScriptModel ScriptFacts FMMModel HeapRef DaryModel FibModel SweepModel QueueModel UntidyModel SolverModel Lifecycle BenchModel Prop_Bench Prop_ScriptLog CfgModel Prop_Heap.
Open Scope Z_scope.
Open Scope list_scope.

(** ** specification: the value a configuration file [l] named [f] gives to an option *)
Definition default_value (f : text) (k v : text) : Prop :=
  (k = str "grid.ndims" /\ v = str "2") \/ (k = str "grid.cell" /\ v = str "FMCell") \/ (k = str "grid.dimsize" /\ v = str "200,200") \/
  (k = str "grid.leafsize" /\ v = str "1") \/ (k = str "problem.goal" /\ v = str "nan") \/ (k = str "benchmark.name" /\ v = no_extension f) \/
  (k = str "benchmark.runs" /\ v = str "10") \/ (k = str "benchmark.savegrid" /\ v = str "0").
Definition asked (f : text) (l : list (text * text)) (k v : text) : Prop :=
  In (k, v) l \/ ((forall v', ~ In (k, v') l) /\ default_value f k v).
(** the option is in the file *)
Definition mentions (l : list (text * text)) (k : text) : Prop := exists v, In (k, v) l.
(** the options of the file that are not among the eleven registered ones *)
Definition others (l : list (text * text)) : list (text * text) := filter (fun kv => negb (is_registered kv)) l.

(** ** lookup *)
Lemma lookup_In k l v : lookup k l = Some v -> In (k, v) l.
Proof.
  induction l as [|[k' v'] l IH]; cbn [lookup]; [discriminate|]. destruct (text_eqb k' k) eqn:E; intros H.
  - apply text_eqb_eq in E. injection H as ->. subst. left. reflexivity.
  - right. auto.
Qed.
Lemma lookup_none k l : lookup k l = None <-> forall v, ~ In (k, v) l.
Proof.
  induction l as [|[k' v'] l IH]; cbn [lookup]; [split; [intros _ v []|reflexivity]|]. destruct (text_eqb k' k) eqn:E.
  - apply text_eqb_eq in E. subst. split; [discriminate|]. intros H. exfalso. apply (H v'). left. reflexivity.
  - rewrite IH. split; intros H v.
    + intros [K|K]; [injection K as -> ->; rewrite text_eqb_refl in E; discriminate|exact (H v K)].
    + intros K. apply (H v). right. exact K.
Qed.
Lemma lookup_app k a b : lookup k (a ++ b) = match lookup k a with Some v => Some v | None => lookup k b end.
Proof. induction a as [|[k' v'] a IH]; [reflexivity|]. cbn [app lookup]. destruct (text_eqb k' k); [reflexivity|exact IH]. Qed.
Lemma existsb_text k l : existsb (text_eqb k) l = true <-> In k l.
Proof. rewrite existsb_exists. split; [intros [x [Hx E]]; apply text_eqb_eq in E; subst; exact Hx|intros H; exists k; split; [exact H|apply text_eqb_refl]]. Qed.
Lemma lookup_once k l v : repeated (map fst l) = false -> In (k, v) l -> lookup k l = Some v.
Proof.
  induction l as [|[k' v'] l IH]; intros Hr Hin; [destruct Hin|]. cbn [map fst repeated] in Hr. apply orb_false_iff in Hr. destruct Hr as [Hx Hr].
  cbn [lookup]. destruct Hin as [E|Hin]; [injection E as -> ->; rewrite text_eqb_refl; reflexivity|].
  destruct (text_eqb k' k) eqn:E; [|auto]. exfalso. apply text_eqb_eq in E. subst k'.
  enough (existsb (text_eqb k) (map fst l) = true) by congruence. apply existsb_text. apply (in_map fst) in Hin. exact Hin.
Qed.
Lemma registered_in k v l : In k registered -> (In (k, v) (filter is_registered l) <-> In (k, v) l).
Proof. intros Hk. rewrite filter_In. unfold is_registered. cbn [fst]. split; [tauto|]. intros H. split; [exact H|]. apply existsb_text. exact Hk. Qed.

(** a registered key occurs twice among the pairs *)
Definition twice (l : list (text * text)) (k : text) : Prop := exists a b c v w, l = a ++ (k, v) :: b ++ (k, w) :: c.
Lemma repeated_twice l : repeated (map fst l) = true <-> exists k, twice l k.
Proof.
  induction l as [|[k v] l IH]; cbn [map fst repeated].
  - split; [discriminate|]. intros [k [[|] [b [c [v [w E]]]]]]; discriminate E.
  - rewrite orb_true_iff, IH. split.
    + intros [H|[k' [a [b [c [v' [w ->]]]]]]].
      * apply existsb_text in H. apply in_map_iff in H. destruct H as [[k' w] [E H]]. cbn in E. subst k'. apply in_split in H. destruct H as [b [c ->]].
        exists k, [], b, c, v, w. reflexivity.
      * exists k', ((k, v) :: a), b, c, v', w. reflexivity.
    + intros [k' [a [b [c [v' [w E]]]]]]. destruct a as [|p a]; cbn [app] in E.
      * injection E as -> -> ->. left. apply existsb_text. rewrite map_app. apply in_or_app. right. left. reflexivity.
      * injection E as _ ->. right. exists k', a, b, c, v', w. reflexivity.
Qed.

Lemma lookup_default f k v : lookup k (defaults (no_extension f)) = Some v <-> default_value f k v.
Proof.
  unfold default_value. split.
  - intros H. apply lookup_In in H. cbn in H. repeat (destruct H as [H|H]; [injection H as <- <-; tauto|]). destruct H.
  - intros H. repeat (destruct H as [[-> ->]|H]; [reflexivity|]). destruct H as [-> ->]. reflexivity.
Qed.

(** C98: an option has the value given in the file or else its default; the file must give
    problem.start, and none of the registered options twice *)
Theorem C98_options : forall f l,
  ((exists k, In k registered /\ twice (filter is_registered l) k) \/ ~ mentions l (str "problem.start") -> readOptions f (Some l) = Fail abort) /\
  ((forall k, ~ twice (filter is_registered l) k) -> mentions l (str "problem.start") ->
     exists opts, readOptions f (Some l) = Ok (Some (opts, readSolvers (others l))) /\
       forall k v, In k registered -> (lookup k opts = Some v <-> asked f l k v)).
Proof.
  intros f l. assert (Hps : In (str "problem.start") registered) by (cbn; tauto). split.
  - intros H. unfold readOptions. destruct (repeated (map fst (filter is_registered l))) eqn:Er; [reflexivity|].
    destruct H as [[k [_ H]]|H]; [exfalso; enough (repeated (map fst (filter is_registered l)) = true) by congruence; apply repeated_twice; eauto|].
    assert (E : lookup (str "problem.start") (filter is_registered l) = None); [|rewrite E; reflexivity].
    apply lookup_none. intros v K. apply (proj1 (registered_in _ _ _ Hps)) in K. apply H. exists v. exact K.
  - intros Ht [v0 Hv0]. unfold readOptions. destruct (repeated (map fst (filter is_registered l))) eqn:Er; [exfalso; apply repeated_twice in Er; destruct Er as [k Hk]; exact (Ht k Hk)|].
    assert (E : lookup (str "problem.start") (filter is_registered l) = Some v0) by (apply lookup_once; [exact Er|]; apply registered_in; auto). rewrite E.
    eexists. split; [reflexivity|]. intros k v Hk. rewrite lookup_app. unfold asked. destruct (lookup k (filter is_registered l)) as [w|] eqn:El.
    + apply lookup_In in El. split.
      * intros H. injection H as ->. left. exact (proj1 (registered_in _ _ _ Hk) El).
      * intros [H|[H _]]; [|exfalso; exact (H _ (proj1 (registered_in _ _ _ Hk) El))].
        apply (proj2 (registered_in _ _ _ Hk)) in H. pose proof (lookup_once _ _ _ Er H) as A. pose proof (lookup_once _ _ _ Er El) as B. congruence.
    + assert (Hn : forall v', ~ In (k, v') l). { intros v' K. apply (proj1 (lookup_none k _) El v'). apply registered_in; auto. }
      rewrite lookup_default. split; [intros H; right; auto|]. intros [H|[_ H]]; [exfalso; exact (Hn _ H)|exact H].
Qed.

(** ** the program *)
Section P.
Context {N : Num} (castU : text -> option Z) (castD : text -> option N) (showD : N -> text) (readD : text -> option N) (timeOf : Z -> text).
Context (image : text -> option (Z * Z * (Z -> Z -> N))) (textfile : text -> option text).
(** boost::lexical_cast<unsigned>: a 32 bit number; an empty text is none *)
Definition unsigned_cast : Prop := castU [] = None /\ forall t n, castU t = Some n -> 0 <= n < 4294967296.
(** images have sizes of type int *)
Definition image_sizes : Prop := forall p w h img, image p = Some (w, h, img) -> 0 <= w < 4294967296 /\ 0 <= h < 4294967296.

Notation fm_benchmark := (fm_benchmark castU castD showD readD timeOf image textfile).
Notation configure := (configure castU castD readD image textfile).
Notation cfg_grid := (cfg_grid castU readD image textfile).

(** the [nd] numbers an option gives: those of the comma separated fields, the last one
    standing for the missing ones, and the superfluous ones ignored *)
Definition numbers (nd : nat) (t : text) (ns : list Z) : Prop :=
  exists fs, fields t fs /\ Forall2 (fun x n => castU x = Some n) (firstn nd (fs ++ repeat (last fs []) nd)) ns.

(** the map asked for *)
Definition map_asked (nd : nat) (f : text) (l : list (text * text)) (g : grid N) : Prop :=
  exists lt leaf g0, asked f l (str "grid.leafsize") lt /\ castD lt = Some leaf /\ g = setLeafSize g0 leaf /\
  (forall p, In (str "grid.file", p) l -> exists w h img, image p = Some (w, h, img) /\ loadMapFromImg w h img empty_grid = Ok g0) /\
  (~ mentions l (str "grid.file") -> forall p, In (str "grid.text", p) l -> loadMapFromText readD nd (textfile p) empty_grid = Ok (1, g0)) /\
  (~ mentions l (str "grid.file") -> ~ mentions l (str "grid.text") ->
     exists dt dims, asked f l (str "grid.dimsize") dt /\ numbers nd dt dims /\ g0 = resize empty_grid dims).

(** ** facts *)
Lemma fields_exist (s : text) : exists fs, fields s fs.
Proof.
  induction s as [|c s [fs [Hne [Hf ->]]]].
  - exists [[]]. split; [discriminate|]. split; [constructor; [intros []|constructor]|reflexivity].
  - destruct (Ascii.eqb_spec c comma) as [->|Hc].
    + exists ([] :: fs). split; [discriminate|]. split; [constructor; [intros []|exact Hf]|]. destruct fs; [contradiction|reflexivity].
    + destruct fs as [|a fs]; [contradiction|]. exists ((c :: a) :: fs). split; [discriminate|]. inversion Hf as [|? ? Ha Hr]; subst. split.
      * constructor; [|exact Hr]. intros [E|E]; [congruence|contradiction].
      * destruct fs; reflexivity.
Qed.
Lemma cast_numbers nd t ns : unsigned_cast -> (1 <= nd)%nat -> splitAndCast castU nd t = Ok ns -> numbers nd t ns.
Proof.
  intros [Hu _] Hnd H. destruct (fields_exist t) as [fs Hfs]. exists fs. split; [exact Hfs|].
  destruct t as [|c t]; [destruct nd; [lia|]; unfold splitAndCast in H; cbn in H; rewrite Hu in H; discriminate|].
  destruct (C59_splitAndCast castU nd (c :: t) fs Hfs ltac:(discriminate)) as [H1 H2]. set (used := firstn nd (fs ++ repeat (last fs []) nd)) in *.
  assert (K : (exists f, In f used /\ castU f = None) \/ exists vs, Forall2 (fun f v => castU f = Some v) used vs).
  { clear. induction used as [|x u IH]; [right; exists []; constructor|]. destruct (castU x) as [v|] eqn:E.
    - destruct IH as [[f [Hf Ef]]|[vs Hvs]]; [left; exists f; split; [right; exact Hf|exact Ef]|right; exists (v :: vs); constructor; auto].
    - left. exists x. split; [left; reflexivity|exact E]. }
  destruct K as [K|[vs K]]; [rewrite (H2 K) in H; discriminate|]. rewrite (H1 _ K) in H. injection H as <-. exact K.
Qed.
Lemma cast_range nd t ns : unsigned_cast -> splitAndCast castU nd t = Ok ns -> List.length ns = nd /\ Forall (fun n => 0 <= n < 4294967296) ns.
Proof.
  intros [_ Hu]. unfold splitAndCast. generalize (mkSs t false) as s, (@nil ascii) as item. revert ns. induction nd as [|nd IH]; intros ns s item H; cbn [splitAndCast_loop] in H.
  - injection H as <-. auto.
  - destruct (getline comma s item) as [s' item']. destruct (castU item') as [v|] eqn:E; [|discriminate]. apply bind_ok in H. destruct H as [r [Hr H]]. injection H as <-.
    destruct (IH _ _ _ Hr) as [A B]. cbn [List.length]. split; [congruence|]. constructor; [exact (Hu _ _ E)|exact B].
Qed.
Lemma loop_range : forall cs ds x i, 0 <= x < 4294967296 -> coord2idx_loop x cs ds = Ok i -> 0 <= i < 4294967296.
Proof.
  induction cs as [|c cs IH]; intros ds x i Hx H; cbn [coord2idx_loop] in H; [injection H as <-; exact Hx|]. destruct ds as [|d ds]; [discriminate|].
  eapply IH; [|exact H]. apply Z.mod_pos_bound. lia.
Qed.
Lemma index_range sh cs i : Forall (fun n => 0 <= n < 4294967296) cs -> coord2idx sh cs = Ok i -> 0 <= i < 4294967296.
Proof.
  intros Hc H. unfold coord2idx in H. destruct (negb _); [discriminate|]. destruct Hc as [|c cr Hc Hr]; [discriminate|]. eapply loop_range; [exact Hc|exact H].
Qed.

Definition tidy (nd : nat) (g : grid N) : Prop :=
  default_cells g /\ List.length (s_dims (g_sh g)) = nd /\ Forall (fun d => 0 <= d < 4294967296) (s_dims (g_sh g)).
Lemma fresh_default dims : default_cells (resize (empty_grid (N := N)) dims).
Proof. apply default_cells_map. cbn [resize g_cells]. rewrite map_map. apply map_ext. reflexivity. Qed.
Lemma load_cell_tidy nd (go go' : grid N * list Z) iv : load_cell go iv = Ok go' -> tidy nd (fst go) -> tidy nd (fst go').
Proof.
  destruct go as [g obs], iv as [i v]. unfold load_cell. intros H [H1 [H2 H3]]. apply bind_ok in H. destruct H as [g1 [E1 H]]. apply bind_ok in H. destruct H as [c [E2 H]].
  injection H as <-. cbn [fst] in *. unfold setVelocity in E1. pose proof E1 as E. apply updCell_ok in E. destruct E as [c0 [E0 ->]]. split; [|split; [exact H2|exact H3]].
  intros j cj Hj. assert (K : getCell (with_cells g (lset (g_cells g) (Z.to_nat i) (with_occ c0 v))) j = Ok cj) by exact Hj.
  rewrite (updCell_get _ _ _ _ j E1) in Hj. destruct (i =? j) eqn:Eij.
  - apply Z.eqb_eq in Eij. subst j. rewrite E0 in Hj. cbn [bind] in Hj. injection Hj as <-. exact (H1 _ _ E0).
  - exact (H1 _ _ Hj).
Qed.
Lemma shape_dims dims : s_dims (mk_shape dims) = dims.
Proof. unfold mk_shape. destruct (partials 1 dims). reflexivity. Qed.
Lemma new_tidy nd dims (leaf : N) : List.length dims = nd -> Forall (fun d => 0 <= d < 4294967296) dims -> tidy nd (setLeafSize (resize empty_grid dims) leaf).
Proof. intros A B. split; [exact (fresh_default dims)|]. cbn [setLeafSize resize g_sh]. rewrite shape_dims. auto. Qed.
Lemma readU_range lim t n : readU lim t = Some n -> 0 <= n < lim.
Proof. unfold readU. destruct t; [discriminate|]. destruct (uint_of_text _) as [u|]; [|discriminate]. destruct (Z.ltb_spec (Z.of_N (BinNat.N.of_uint u)) lim); [|discriminate]. intros E. injection E as <-. lia. Qed.
Lemma read_dims_range : forall n s s' l dims, read_dims n s = (s', l) -> mapM use l = Ok dims -> List.length dims = n /\ Forall (fun d => 0 <= d < 4294967296) dims.
Proof.
  induction n as [|n IH]; intros s s' l dims H Hm; cbn [read_dims] in H.
  - injection H as <- <-. cbn in Hm. injection Hm as <-. auto.
  - destruct (extract (readU 4294967296) 0 s None) as [s1 v] eqn:Ev. destruct (read_dims n s1) as [s2 r] eqn:Er. injection H as <- <-.
    cbn [mapM] in Hm. apply bind_ok in Hm. destruct Hm as [x [Hx Hm]]. apply bind_ok in Hm. destruct Hm as [xs [Hxs Hm]]. injection Hm as <-.
    destruct (IH _ _ _ _ Er Hxs) as [A B]. cbn [List.length]. split; [congruence|]. constructor; [|exact B].
    destruct v as [y|]; [|discriminate]. injection Hx as <-. unfold extract in Ev. destruct (in_good s); [|discriminate Ev].
    destruct (skip_space (in_rest s)) as [|c t]; [discriminate Ev|]. destruct (take_token (c :: t)) as [tok rest]. destruct (readU 4294967296 tok) as [x|] eqn:Ex.
    + injection Ev as _ <-. exact (readU_range _ _ _ Ex).
    + injection Ev as _ <-. lia.
Qed.
Lemma load_cells_tidy nd : forall n i s occ (go go' : grid N * list Z), load_cells readD n i s occ go = Ok go' -> tidy nd (fst go) -> tidy nd (fst go').
Proof.
  induction n as [|n IH]; intros i s occ go go' H Ht; cbn [load_cells] in H; [injection H as <-; exact Ht|].
  destruct (extract readD n0 s occ) as [s1 o1]. apply bind_ok in H. destruct H as [v [_ H]]. apply bind_ok in H. destruct H as [go1 [H1 H]].
  eapply IH; [exact H|]. eapply load_cell_tidy; eauto.
Qed.
Lemma text_tidy nd p (g0 : grid N) ok : loadMapFromText readD nd (textfile p) empty_grid = Ok (ok, g0) -> ok <> 0 -> tidy nd g0 /\ ok = 1.
Proof.
  unfold loadMapFromText. destruct (textfile p) as [t|]; intros H Hok; [|congruence].
  destruct (extract readD n0 (skip_line (mkIn t true)) None) as [s1 leaf]. destruct (extract (readU 18446744073709551616) 0 s1 None) as [s2 k].
  apply bind_ok in H. destruct H as [k1 [_ H]]. destruct (negb (k1 =? Z.of_nat nd)); [discriminate|]. destruct (read_dims nd s2) as [s3 ds] eqn:Ed.
  apply bind_ok in H. destruct H as [dims [Hd H]]. apply bind_ok in H. destruct H as [lf [_ H]]. apply bind_ok in H. destruct H as [[g2 obs] [Hl H]].
  injection H as <- <-. split; [|reflexivity]. destruct (read_dims_range _ _ _ _ _ Ed Hd) as [A B].
  assert (K : tidy nd g2). { apply (load_cells_tidy nd _ _ _ _ _ _ Hl). apply new_tidy; auto. }
  exact K.
Qed.
Lemma img_tidy w h img (g0 : grid N) : 0 <= w < 4294967296 -> 0 <= h < 4294967296 -> loadMapFromImg w h img empty_grid = Ok g0 -> tidy 2 g0.
Proof.
  intros Hw Hh H. unfold loadMapFromImg in H. apply bind_ok in H. destruct H as [[g2 obs] [Hl H]]. injection H as <-.
  assert (K : tidy 2 (fst (g2, obs))); [|exact K].
  refine (foldM_inv_partial (fun go : grid N * list Z => tidy 2 (fst go)) _ _ _ _ _ _ Hl).
  - split; [exact (fresh_default [w; h])|]. split; [cbn [resize g_sh fst]; rewrite shape_dims; reflexivity|]. cbn [resize g_sh fst]. rewrite shape_dims. repeat constructor; lia.
  - intros go xy go' Hin Ht Hg. cbv beta in Hg. apply bind_ok in Hg. destruct Hg as [i [_ Hg]]. eapply load_cell_tidy; eauto.
Qed.

(** what reading the options gives *)
Lemma readOptions_ok f l opts sv : readOptions f (Some l) = Ok (Some (opts, sv)) ->
  sv = readSolvers (others l) /\ (forall k v, In k registered -> (lookup k opts = Some v <-> asked f l k v)) /\
  (forall k, In k registered -> lookup k opts = None -> ~ mentions l k).
Proof.
  intros H. destruct (C98_options f l) as [Ha Hb].
  assert (Ht : forall k, ~ twice (filter is_registered l) k).
  { intros k Hk. rewrite Ha in H; [discriminate|]. left. exists k. split; [|exact Hk]. destruct Hk as [a [b [c [v [w E]]]]].
    assert (K : In (k, v) (filter is_registered l)) by (rewrite E; apply in_or_app; right; left; reflexivity). apply filter_In in K. apply existsb_text. apply K. }
  assert (Hm : mentions l (str "problem.start")).
  { unfold readOptions in H. destruct (repeated _); [discriminate|]. destruct (lookup (str "problem.start") (filter is_registered l)) as [v|] eqn:E; [|discriminate].
    exists v. apply lookup_In in E. apply filter_In in E. apply E. }
  destruct (Hb Ht Hm) as [opts' [E K]]. rewrite E in H. injection H as <- <-. split; [reflexivity|]. split; [exact K|].
  intros k Hk Hn [v Hv]. assert (A : lookup k opts' = Some v) by (apply K; [exact Hk|left; exact Hv]). congruence.
Qed.
Lemma getValue_ok {T} (cast : text -> option T) f l opts k v : In k registered -> (forall w, lookup k opts = Some w <-> asked f l k w) ->
  (exists w, asked f l k w) -> getValue cast opts k = Ok v -> exists t, asked f l k t /\ cast t = Some v.
Proof.
  intros Hk K [w Hw] H. unfold getValue in H. rewrite (proj2 (K w) Hw) in H. exists w. split; [exact Hw|]. destruct (cast w); [injection H as <-; reflexivity|discriminate].
Qed.
Lemma has_value f l k : (exists v, default_value f k v) -> exists v, asked f l k v.
Proof.
  intros [v Hv]. destruct (lookup k l) as [w|] eqn:E; [exists w; left; apply lookup_In; exact E|]. exists v. right. split; [apply lookup_none; exact E|exact Hv].
Qed.
Lemma asked_not_default f l k v : (forall w, ~ default_value f k w) -> asked f l k v -> In (k, v) l.
Proof. intros H [K|[_ K]]; [exact K|exfalso; exact (H v K)]. Qed.

Lemma grid_asked nd f l opts sv g leaf : unsigned_cast -> image_sizes -> (1 <= nd)%nat -> readOptions f (Some l) = Ok (Some (opts, sv)) ->
  cfg_grid nd opts = Ok g -> getValue castD opts (str "grid.leafsize") = Ok leaf -> map_asked nd f l (setLeafSize g leaf) /\ tidy nd (setLeafSize g leaf).
Proof.
  intros Hu Hi Hnd Hro H Hleaf. destruct (readOptions_ok _ _ _ _ Hro) as [_ [K Kn]].
  assert (R : forall s, In s ["grid.file"; "grid.text"; "grid.dimsize"; "grid.leafsize"]%string -> In (str s) registered) by (intros s Hs; cbn in Hs; repeat (destruct Hs as [<-|Hs]; [cbn; tauto|]); destruct Hs).
  destruct (getValue_ok castD f l opts _ _ (R "grid.leafsize"%string ltac:(cbn; tauto)) (fun w => K _ w (R "grid.leafsize"%string ltac:(cbn; tauto))) (has_value f l (str "grid.leafsize") ltac:(exists (str "1"); unfold default_value; tauto)) Hleaf) as [lt [Hlt Hc]].
  assert (Nf : forall w, ~ default_value f (str "grid.file") w) by (intros w D; unfold default_value in D; repeat (destruct D as [[D _]|D]; [discriminate D|]); destruct D as [D _]; discriminate D).
  assert (Nt : forall w, ~ default_value f (str "grid.text") w) by (intros w D; unfold default_value in D; repeat (destruct D as [[D _]|D]; [discriminate D|]); destruct D as [D _]; discriminate D).
  unfold CfgModel.cfg_grid in H. destruct (lookup (str "grid.file") opts) as [p|] eqn:Ef.
  - pose proof (asked_not_default _ _ _ _ Nf (proj1 (K _ _ (R "grid.file"%string ltac:(cbn; tauto))) Ef)) as Hp.
    destruct (image p) as [[[w h] img]|] eqn:Ei; [|discriminate]. destruct (Nat.eqb_spec nd 2) as [->|]; [|discriminate]. destruct (Hi _ _ _ _ Ei) as [Hw Hh].
    split; [|exact (img_tidy _ _ _ _ Hw Hh H)]. exists lt, leaf, g. split; [exact Hlt|]. split; [exact Hc|]. split; [reflexivity|]. split; [|split].
    + intros q Hq. assert (A : lookup (str "grid.file") opts = Some q) by (apply K; [exact (R "grid.file"%string ltac:(cbn; tauto))|left; exact Hq]). rewrite Ef in A. injection A as <-. exists w, h, img. auto.
    + intros Hn. exfalso. apply Hn. exists p. exact Hp.
    + intros Hn. exfalso. apply Hn. exists p. exact Hp.
  - pose proof (Kn _ (R "grid.file"%string ltac:(cbn; tauto)) Ef) as Hnf. destruct (lookup (str "grid.text") opts) as [p|] eqn:Et.
    + pose proof (asked_not_default _ _ _ _ Nt (proj1 (K _ _ (R "grid.text"%string ltac:(cbn; tauto))) Et)) as Hp.
      apply bind_ok in H. destruct H as [[ok g1] [H1 H]]. destruct (Z.eqb_spec ok 0) as [|Hok]; [discriminate|]. injection H as ->. destruct (text_tidy _ _ _ _ H1 Hok) as [Ht ->].
      split; [|exact Ht]. exists lt, leaf, g. split; [exact Hlt|]. split; [exact Hc|]. split; [reflexivity|]. split; [|split].
      * intros q Hq. exfalso. apply Hnf. exists q. exact Hq.
      * intros _ q Hq. assert (A : lookup (str "grid.text") opts = Some q) by (apply K; [exact (R "grid.text"%string ltac:(cbn; tauto))|left; exact Hq]). rewrite Et in A. injection A as <-. exact H1.
      * intros _ Hn. exfalso. apply Hn. exists p. exact Hp.
    + pose proof (Kn _ (R "grid.text"%string ltac:(cbn; tauto)) Et) as Hnt. apply bind_ok in H. destruct H as [dt [H1 H]]. apply bind_ok in H. destruct H as [dims [H2 H]]. injection H as <-.
      unfold option_at in H1. destruct (lookup (str "grid.dimsize") opts) as [v|] eqn:Ev; [|discriminate]. injection H1 as ->.
      apply (K _ _ (R "grid.dimsize"%string ltac:(cbn; tauto))) in Ev. destruct (cast_range _ _ _ Hu H2) as [A B].
      split; [|apply new_tidy; auto].
      exists lt, leaf, (resize empty_grid dims). split; [exact Hlt|]. split; [exact Hc|]. split; [reflexivity|]. split; [|split].
      * intros q Hq. exfalso. apply Hnf. exists q. exact Hq.
      * intros _ q Hq. exfalso. apply Hnt. exists q. exact Hq.
      * intros _ _. exists dt, dims. split; [exact Ev|]. split; [exact (cast_numbers _ _ _ Hu Hnd H2)|reflexivity].
Qed.

(** the index of the cell an option names (problem.start, problem.goal) *)
Definition cell_asked (nd : nat) (f : text) (l : list (text * text)) (k : text) (g : grid N) (i : Z) : Prop :=
  exists t cs, asked f l k t /\ numbers nd t cs /\ coord2idx (g_sh g) cs = Ok i.
Definition goal_asked (nd : nat) (f : text) (l : list (text * text)) (g : grid N) (i : Z) : Prop :=
  (asked f l (str "problem.goal") (str "nan") /\ i = noGoal) \/ (~ asked f l (str "problem.goal") (str "nan") /\ cell_asked nd f l (str "problem.goal") g i).
(** an option with an unsigned value *)
Definition number_asked (f : text) (l : list (text * text)) (k : text) (n : Z) : Prop := exists t, asked f l k t /\ castU t = Some n.

(** everything the program runs *)
Record run_asked (fuel sfuel : nat) (nd : nat) (f : text) (l : list (text * text)) (b : bench N) (g : grid N) (ms : list (made N)) : Prop := {
  ra_solvers : configure_solvers castU castD sfuel (readSolvers (others l)) = Ok ms /\ b_solvers b = map (construct fuel) ms;
  ra_name : asked f l (str "benchmark.name") (b_name b);
  ra_runs : number_asked f l (str "benchmark.runs") (b_nruns b);
  ra_save : number_asked f l (str "benchmark.savegrid") (b_saveGrid b);
  ra_map : map_asked nd f l g;
  ra_start : exists s, b_init b = [s] /\ cell_asked nd f l (str "problem.start") g s /\ 0 <= s < 4294967296;
  ra_goal : goal_asked nd f l g (b_goal b) /\ 0 <= b_goal b < 4294967296;
  ra_new : b_runID b = 0 /\ b_log b = [] /\ b_files b = [];
  ra_tidy : tidy nd g
}.

Lemma asked_fun f l opts sv k v w : readOptions f (Some l) = Ok (Some (opts, sv)) -> In k registered -> asked f l k v -> asked f l k w -> v = w.
Proof. intros H Hk Hv Hw. destruct (readOptions_ok _ _ _ _ H) as [_ [K _]]. apply (K _ _ Hk) in Hv. apply (K _ _ Hk) in Hw. congruence. Qed.

Lemma configure_asked fuel sfuel nd f l opts sv b g : unsigned_cast -> image_sizes -> (1 <= nd)%nat -> readOptions f (Some l) = Ok (Some (opts, sv)) ->
  configure fuel sfuel nd opts sv = Ok (b, g) -> exists ms, run_asked fuel sfuel nd f l b g ms.
Proof.
  intros Hu Hi Hnd Hro H. destruct (readOptions_ok _ _ _ _ Hro) as [Esv [K Kn]]. unfold CfgModel.configure in H.
  assert (R : forall s, In s ["grid.file"; "grid.text"; "grid.dimsize"; "grid.leafsize"; "problem.start"; "problem.goal"; "benchmark.name"; "benchmark.runs"; "benchmark.savegrid"]%string -> In (str s) registered) by (intros s Hs; cbn in Hs; repeat (destruct Hs as [<-|Hs]; [cbn; tauto|]); destruct Hs).
  assert (O : forall s v, In s ["problem.start"; "problem.goal"; "benchmark.name"]%string -> option_at opts (str s) = Ok v -> asked f l (str s) v).
  { intros s v Hs E. unfold option_at in E. destruct (lookup (str s) opts) as [x|] eqn:Ex; [|discriminate]. injection E as ->. apply (K _ _ (R s ltac:(cbn in *; tauto))). exact Ex. }
  apply bind_ok in H. destruct H as [name [H1 H]]. apply bind_ok in H. destruct H as [save [H2 H]]. apply bind_ok in H. destruct H as [nruns [H3 H]].
  apply bind_ok in H. destruct H as [ms [H4 H]]. apply bind_ok in H. destruct H as [g0 [H5 H]]. apply bind_ok in H. destruct H as [leaf [H6 H]].
  apply bind_ok in H. destruct H as [ts [H7 H]]. apply bind_ok in H. destruct H as [start [H8 H]]. apply bind_ok in H. destruct H as [s [H9 H]].
  apply bind_ok in H. destruct H as [tg [H10 H]]. apply bind_ok in H. destruct H as [goal [H11 H]]. injection H as <- <-.
  destruct (grid_asked nd f l opts sv g0 leaf Hu Hi Hnd Hro H5 H6) as [Hmap Htidy].
  exists ms. constructor; cbn [b_solvers b_name b_nruns b_saveGrid b_init b_goal b_runID b_log b_files]; auto.
  - rewrite <- Esv. auto.
  - apply (O "benchmark.name"%string); [cbn; tauto|exact H1].
  - apply (getValue_ok castU f l opts _ _ (R "benchmark.runs"%string ltac:(cbn; tauto)) (fun w => K _ w (R "benchmark.runs"%string ltac:(cbn; tauto))) (has_value f l (str "benchmark.runs") ltac:(exists (str "10"); unfold default_value; tauto)) H3).
  - apply (getValue_ok castU f l opts _ _ (R "benchmark.savegrid"%string ltac:(cbn; tauto)) (fun w => K _ w (R "benchmark.savegrid"%string ltac:(cbn; tauto))) (has_value f l (str "benchmark.savegrid") ltac:(exists (str "0"); unfold default_value; tauto)) H2).
  - exists s. split; [reflexivity|]. split; [|eapply index_range; [apply (cast_range _ _ _ Hu H8)|exact H9]].
    exists ts, start. split; [apply (O "problem.start"%string); [cbn; tauto|exact H7]|]. split; [exact (cast_numbers _ _ _ Hu Hnd H8)|exact H9].
  - pose proof (O "problem.goal"%string tg ltac:(cbn; tauto) H10) as Ag. destruct (text_eqb tg (str "nan")) eqn:En.
    + apply text_eqb_eq in En. subst tg. injection H11 as <-. split; [left; auto|]. vm_compute. split; congruence.
    + apply bind_ok in H11. destruct H11 as [gc [H11 H12]]. split; [|eapply index_range; [apply (cast_range _ _ _ Hu H11)|exact H12]].
      right. split.
      * intros A. pose proof (asked_fun _ _ _ _ _ _ _ Hro (R "problem.goal"%string ltac:(cbn; tauto)) A Ag) as E. subst tg. rewrite text_eqb_refl in En. discriminate.
      * exists tg, gc. split; [exact Ag|]. split; [exact (cast_numbers _ _ _ Hu Hnd H11)|exact H12].
Qed.

(** C98: without an argument the program does nothing and returns 1; with a file that cannot
    be opened, a cell type other than FMCell, or a number of dimensions other than 2 and 3
    it does nothing and returns 0 *)
Theorem C98_does_nothing : forall fuel sfuel file,
  fm_benchmark fuel sfuel [] file = Ok (1, []) /\
  (forall f more, file f = None -> fm_benchmark fuel sfuel (f :: more) file = Ok (0, [])) /\
  (forall f more l, file f = Some l -> (forall k, ~ twice (filter is_registered l) k) -> mentions l (str "problem.start") ->
     (~ asked f l (str "grid.cell") (str "FMCell") \/
      asked f l (str "grid.cell") (str "FMCell") /\ (exists n, number_asked f l (str "grid.ndims") n /\ n <> 2 /\ n <> 3)) ->
     fm_benchmark fuel sfuel (f :: more) file = Ok (0, [])).
Proof.
  intros fuel sfuel file. split; [reflexivity|]. split.
  - intros f more Hf. unfold CfgModel.fm_benchmark. rewrite Hf. reflexivity.
  - intros f more l Hf Ht Hm H. destruct (proj2 (C98_options f l) Ht Hm) as [opts [E K]]. unfold CfgModel.fm_benchmark. rewrite Hf, E. cbn [bind].
    assert (Rc : In (str "grid.cell") registered) by (cbn; tauto). assert (Rn : In (str "grid.ndims") registered) by (cbn; tauto).
    destruct (has_value f l (str "grid.cell") ltac:(exists (str "FMCell"); unfold default_value; tauto)) as [c Hc].
    unfold option_at. rewrite (proj2 (K _ _ Rc) Hc). cbn [bind]. destruct (text_eqb c (str "FMCell")) eqn:Ec; [|reflexivity].
    apply text_eqb_eq in Ec. subst c. destruct H as [H|[_ [n [[t [Hn Et]] [N2 N3]]]]]; [contradiction|].
    unfold getValue. rewrite (proj2 (K _ _ Rn) Hn), Et. cbn [bind]. destruct (Z.eqb_spec n 2); [contradiction|]. destruct (Z.eqb_spec n 3); [contradiction|]. reflexivity.
Qed.

(** C98: a number that cannot be read ends the program abnormally, before any file is
    written: the number of dimensions always, and in two or three dimensions the saving mode
    and (when that can be read) the number of runs *)
Theorem C98_unreadable_number_aborts : forall fuel sfuel f more file l,
  file f = Some l -> (forall k, ~ twice (filter is_registered l) k) -> mentions l (str "problem.start") ->
  asked f l (str "grid.cell") (str "FMCell") ->
  let unreadable k := exists t, asked f l k t /\ castU t = None in
  (unreadable (str "grid.ndims") \/
   (number_asked f l (str "grid.ndims") 2 \/ number_asked f l (str "grid.ndims") 3) /\
   (unreadable (str "benchmark.savegrid") \/
    (exists n, number_asked f l (str "benchmark.savegrid") n) /\ unreadable (str "benchmark.runs"))) ->
  fm_benchmark fuel sfuel (f :: more) file = Fail abort.
Proof.
  intros fuel sfuel f more file l Hf Ht Hm Hc unreadable H. destruct (proj2 (C98_options f l) Ht Hm) as [opts [E K]].
  unfold CfgModel.fm_benchmark. rewrite Hf, E. cbn [bind].
  assert (Rc : In (str "grid.cell") registered) by (cbn; tauto). assert (Rn : In (str "grid.ndims") registered) by (cbn; tauto).
  assert (Rs : In (str "benchmark.savegrid") registered) by (cbn; tauto). assert (Rr : In (str "benchmark.runs") registered) by (cbn; tauto).
  assert (Ra : In (str "benchmark.name") registered) by (cbn; tauto).
  unfold option_at at 1. rewrite (proj2 (K _ _ Rc) Hc). cbn [bind]. rewrite text_eqb_refl.
  destruct H as [[t [Ha En]]|[Hn H]].
  - unfold getValue. rewrite (proj2 (K _ _ Rn) Ha), En. reflexivity.
  - assert (Hn' : exists nd, number_asked f l (str "grid.ndims") nd /\ (nd =? 2) || (nd =? 3) = true).
    { destruct Hn as [Hn|Hn]; [exists 2|exists 3]; split; auto. }
    destruct Hn' as [nd [[t [Ha En]] Eb]]. unfold getValue at 1. rewrite (proj2 (K _ _ Rn) Ha), En. cbn [bind]. rewrite Eb.
    destruct (has_value f l (str "benchmark.name") ltac:(exists (no_extension f); unfold default_value; tauto)) as [nm Hnm].
    unfold configure. unfold option_at at 1. rewrite (proj2 (K _ _ Ra) Hnm). cbn [bind].
    destruct H as [[t1 [H1 E1]]|[[n [t1 [H1 E1]]] [t2 [H2 E2]]]].
    + unfold getValue at 1. rewrite (proj2 (K _ _ Rs) H1), E1. reflexivity.
    + unfold getValue at 1. rewrite (proj2 (K _ _ Rs) H1), E1. cbn [bind]. unfold getValue at 1. rewrite (proj2 (K _ _ Rr) H2), E2. reflexivity.
Qed.

(** C98: whenever the program ends normally on a configuration with FMCell and two or three
    dimensions, it returns 0 and has run the benchmark that the configuration asks for:
    its name, number of runs and saving mode, its solvers, its map, its start and its goal *)
Theorem C98_runs_what_is_asked : forall fuel sfuel f more file l nd code files,
  unsigned_cast -> image_sizes ->
  fm_benchmark fuel sfuel (f :: more) file = Ok (code, files) -> file f = Some l ->
  asked f l (str "grid.cell") (str "FMCell") -> number_asked f l (str "grid.ndims") nd -> nd = 2 \/ nd = 3 ->
  code = 0 /\ exists b g ms b' g', run_asked fuel sfuel (Z.to_nat nd) f l b g ms /\
    bench_run showD timeOf b g = Ok (b', g') /\ files = results b'.
Proof.
  intros fuel sfuel f more file l nd code files Hu Hi H Hf Hc [tn [Hn En]] Hnd. unfold CfgModel.fm_benchmark in H. rewrite Hf in H.
  apply bind_ok in H. destruct H as [ro [H1 H]]. destruct ro as [[opts sv]|].
  2:{ unfold readOptions in H1. destruct (repeated _); [discriminate|]. destruct (lookup _ _); discriminate. }
  destruct (readOptions_ok _ _ _ _ H1) as [_ [K _]].
  assert (Rc : In (str "grid.cell") registered) by (cbn; tauto). assert (Rn : In (str "grid.ndims") registered) by (cbn; tauto).
  unfold option_at in H. rewrite (proj2 (K _ _ Rc) Hc) in H. cbn [bind] in H. rewrite text_eqb_refl in H.
  unfold getValue in H at 1. rewrite (proj2 (K _ _ Rn) Hn), En in H. cbn [bind] in H.
  assert (E : (nd =? 2) || (nd =? 3) = true) by (destruct Hnd as [->| ->]; reflexivity). rewrite E in H.
  apply bind_ok in H. destruct H as [[b g] [H2 H]]. apply bind_ok in H. destruct H as [[b' g'] [H3 H]]. injection H as <- <-.
  split; [reflexivity|]. assert (Hnd1 : (1 <= Z.to_nat nd)%nat) by lia. destruct (configure_asked _ _ _ _ _ _ _ _ _ Hu Hi Hnd1 H1 H2) as [ms Hr]. exists b, g, ms, b', g'. auto.
Qed.

Lemma construct_class fuel m : let s := construct (N := N) fuel m in
  (exists HO fuel, bs_class s = cFMM HO fuel) \/ (exists fuel, bs_class s = cFSM fuel \/ bs_class s = cLSM fuel \/ bs_class s = cDDQM fuel \/ bs_class s = cFIM fuel \/ bs_class s = cGMM fuel \/ bs_class s = cUFMM fuel).
Proof. destruct m as [k nm a]. destruct k; cbn; try (left; eexists _, _; reflexivity); right; exists fuel; tauto. Qed.
Lemma construct_fresh fuel m : md_kind m <> KLSM -> md_kind m <> KDDQM -> fresh (construct (N := N) fuel m).
Proof.
  destruct m as [k nm a]. cbn [md_kind]. intros H1 H2. destruct k; unfold construct; cbn [md_kind]; try contradiction;
    first [apply C45_fresh_fmm|apply C45_fresh_gmm|apply C45_fresh_fim|apply C45_fresh_ufmm|apply C45_fresh_fsm].
Qed.

(** C98: the log.  results/NAME.log is written last, and the library's script
    parseBenchmarkLog.m reads from it the name, the number of runs, the sizes of the map,
    the start, the goal and, for each solver of the configuration in its order, its name
    and the times of its runs. *)
Theorem C98_log : forall fuel sfuel f more file l nd code files {T} (str2double : text -> option T),
  unsigned_cast -> image_sizes ->
  fm_benchmark fuel sfuel (f :: more) file = Ok (code, files) -> file f = Some l ->
  asked f l (str "grid.cell") (str "FMCell") -> number_asked f l (str "grid.ndims") nd -> nd = 2 \/ nd = 3 ->
  exists b g ms s log grids, run_asked fuel sfuel (Z.to_nat nd) f l b g ms /\ b_init b = [s] /\
    files = grids ++ [(str "results/" ++ b_name b ++ str ".log", log)] /\
    (forall p t, In (p, t) grids -> exists x, p = str "results/" ++ b_name b ++ str "/" ++ x) /\
    (0 < b_nruns b -> b_nruns b * Z.of_nat (List.length ms) < 4294967296 ->
     Forall (fun c => is_space c = false) (b_name b) -> Forall (fun m => is_token (bs_name (construct fuel m))) ms -> (forall id, is_token (timeOf id)) ->
     exists ml, parseBenchmarkLog str2double log = Ok ml /\
       ml_name ml = b_name b /\ ml_nruns ml = b_nruns b /\ ml_ndims ml = nd /\ ml_dims ml = s_dims (g_sh g) /\ ml_start ml = [s] /\
       ml_goal ml = (if b_goal b =? noGoal then None else Some (b_goal b)) /\
       ml_exp ml = map (fun km => (bs_name (construct fuel (snd km)), map (fun j => str2double (timeOf (1 + fst km * b_nruns b + j))) (zseq (Z.to_nat (b_nruns b)))))
                       (combine (zseq (List.length ms)) ms)).
Proof.
  intros fuel sfuel f more file l nd code files T str2double Hu Hi H Hf Hc Hn Hnd.
  destruct (C98_runs_what_is_asked _ _ _ _ _ _ _ _ _ Hu Hi H Hf Hc Hn Hnd) as [_ [b [g [ms [b' [g' [Hr [Hb Ef]]]]]]]].
  pose proof Hr as [[_ Rs] Rn [tr [_ Rr]] Rsv Rm [s [Es [_ Rst]]] [_ Rg] [N1 [N2 N3]] [Rt1 [Rt2 Rt3]]].
  assert (Enm : b_name b' = b_name b) by (unfold bench_run in Hb; apply bind_ok in Hb; destruct Hb as [[ss g1] [_ Hb]]; apply bind_ok in Hb; destruct Hb as [[[[[s2 g2] id] lg] fs] [_ Hb]]; injection Hb as <- <-; reflexivity).
  exists b, g, ms, s, (b_log b'), (map (fun f => (str "results/" ++ b_name b' ++ str "/" ++ fst f, snd f)) (b_files b')).
  split; [exact Hr|]. split; [exact Es|]. split; [rewrite Ef; unfold results; rewrite Enm; reflexivity|]. split.
  { intros p t Hin. apply in_map_iff in Hin. destruct Hin as [[x y] [E _]]. injection E as <- <-. exists x. rewrite Enm. reflexivity. }
  intros Hpos Hlt Hname Hnames Htime.
  assert (El : List.length (b_solvers b) = List.length ms) by (rewrite Rs; apply map_length).
  destruct (C97_benchmark_log showD timeOf str2double b b' g g' Hb) as [ml [E [M1 [M2 [M3 [M4 [M5 [M6 [_ M8]]]]]]]]]; rewrite ?N1, ?N2, ?Es, ?El; auto; try lia.
  - destruct Hu as [_ Hu]. split; [lia|apply (Hu _ _ Rr)].
  - rewrite Rs. apply Forall_forall. intros x Hx. apply in_map_iff in Hx. destruct Hx as [m [<- _]]. apply C97_library_solvers_keep_dims. apply construct_class.
  - cbn. lia.
  - rewrite Rs. rewrite Forall_map. exact Hnames.
  - exists ml. split; [exact E|]. split; [exact M1|]. split; [exact M2|]. split; [rewrite M3, Rt2; lia|]. split; [exact M4|]. split; [rewrite M5; exact Es|]. split; [exact M6|].
    rewrite M8, Rs, map_length, N1. clear. generalize (zseq (List.length ms)) as z. intros z. revert z. induction ms as [|m ms IH]; intros [|k z]; try reflexivity. cbn [map combine]. rewrite IH. reflexivity.
Qed.

(** C98: the grids.  Unless lsm (or ddqm) is among the solvers, every saved grid holds the
    arrival times the solver computes when it is alone on the map of the configuration;
    with savegrid 2 there is one per run, results/NAME/0001.grid and so on, with savegrid 1
    one per solver, named after it; with another value there are none. *)
Theorem C98_grids : forall fuel sfuel f more file l nd code files,
  unsigned_cast -> image_sizes ->
  fm_benchmark fuel sfuel (f :: more) file = Ok (code, files) -> file f = Some l ->
  asked f l (str "grid.cell") (str "FMCell") -> number_asked f l (str "grid.ndims") nd -> nd = 2 \/ nd = 3 ->
  exists b g ms s grids lf, run_asked fuel sfuel (Z.to_nat nd) f l b g ms /\ b_init b = [s] /\ files = grids ++ [lf] /\
   (ms <> [] -> (forall m, In m ms -> md_kind m <> KLSM /\ md_kind m <> KDDQM) -> 0 < b_nruns b -> b_nruns b * Z.of_nat (List.length ms) < 4294967296 ->
     (forall m, In m ms -> exists r, alone (construct fuel m) g [s] (b_goal b) r) /\
     (b_saveGrid b = 2 -> Z.of_nat (List.length grids) = b_nruns b * Z.of_nat (List.length ms) /\
        forall k p t, nth_error grids k = Some (p, t) -> p = str "results/" ++ b_name b ++ str "/" ++ formatID (1 + Z.of_nat k) ++ str ".grid" /\
          exists m r, nth_error ms (k / Z.to_nat (b_nruns b)) = Some m /\ alone (construct fuel m) g [s] (b_goal b) r /\ saveGridValues showD r = Ok t) /\
     (b_saveGrid b = 1 -> List.length grids = List.length ms /\
        forall k p t, nth_error grids k = Some (p, t) -> exists m r, nth_error ms k = Some m /\ p = str "results/" ++ b_name b ++ str "/" ++ grid_file (bs_name (construct fuel m)) /\
          alone (construct fuel m) g [s] (b_goal b) r /\ saveGridValues showD r = Ok t) /\
     (b_saveGrid b <> 1 -> b_saveGrid b <> 2 -> grids = [])).
Proof.
  intros fuel sfuel f more file l nd code files Hu Hi H Hf Hc Hn Hnd.
  destruct (C98_runs_what_is_asked _ _ _ _ _ _ _ _ _ Hu Hi H Hf Hc Hn Hnd) as [_ [b [g [ms [b' [g' [Hr [Hb Ef]]]]]]]].
  pose proof Hr as [[_ Rs] Rn [tr [_ Rr]] Rsv Rm [s [Es [_ Rst]]] [_ Rg] [N1 [N2 N3]] [Rt1 [Rt2 Rt3]]].
  assert (Enm : b_name b' = b_name b) by (unfold bench_run in Hb; apply bind_ok in Hb; destruct Hb as [[ss g1] [_ Hb]]; apply bind_ok in Hb; destruct Hb as [[[[[s2 g2] id] lg] fs] [_ Hb]]; injection Hb as <- <-; reflexivity).
  exists b, g, ms, s, (map (fun f => (str "results/" ++ b_name b' ++ str "/" ++ fst f, snd f)) (b_files b')), (str "results/" ++ b_name b' ++ str ".log", b_log b').
  split; [exact Hr|]. split; [exact Es|]. split; [exact Ef|]. intros Hne Hk Hpos Hlt.
  assert (El : List.length (b_solvers b) = List.length ms) by (rewrite Rs; apply map_length).
  destruct (C45_runs_are_independent showD timeOf b b' g g' Hb) as [_ [A [B [C D]]]]; rewrite ?N1, ?El; auto; try lia.
  { intros _. exact Rt1. }
  { rewrite Rs. apply Forall_forall. intros x Hx. apply in_map_iff in Hx. destruct Hx as [m [<- Hm]]. apply construct_fresh; apply Hk; exact Hm. }
  { rewrite Rs. destruct ms; [contradiction|discriminate]. }
  rewrite Es in A, B, C. rewrite N3 in B, C, D. rewrite El in B, C. rewrite Rs in A, B, C. rewrite N1 in B. cbn [app] in B, C, D. rewrite Enm. split; [|split; [|split]].
  - intros m Hm. apply A. apply in_map. exact Hm.
  - intros H2. destruct (B H2) as [fl [E1 [E2 E3]]]. rewrite E1. split; [rewrite map_length; exact E2|]. intros k p t Hp. rewrite nth_error_map in Hp.
    destruct (nth_error fl k) as [[nm t0]|] eqn:En; [|discriminate]. injection Hp as <- <-. destruct (E3 _ _ _ En) as [-> [sv [r [Hsv [Hal Hsave]]]]]. cbn [fst snd]. split; [reflexivity|].
    rewrite nth_error_map in Hsv. destruct (nth_error ms (k / Z.to_nat (b_nruns b))) as [m|] eqn:Em; [|discriminate]. injection Hsv as <-. exists m, r. auto.
  - intros H1. destruct (C H1) as [fl [E1 [E2 E3]]]. rewrite E1. split; [rewrite map_length; exact E2|]. intros k p t Hp. rewrite nth_error_map in Hp.
    destruct (nth_error fl k) as [[nm t0]|] eqn:En; [|discriminate]. injection Hp as <- <-. destruct (E3 _ _ _ En) as [sv [r [Hsv [-> [Hal Hsave]]]]]. cbn [fst snd].
    rewrite nth_error_map in Hsv. destruct (nth_error ms k) as [m|] eqn:Em; [|discriminate]. injection Hsv as <-. exists m, r. auto.
  - intros H1 H2. rewrite (D H1 H2). reflexivity.
Qed.
End P.

(** C98: the start (and likewise the goal).  Coordinates inside the map give that cell; other
    coordinates are not rejected: in a 2D map of width w, x at or beyond w is carried into y. *)
Theorem C98_start_inside : forall {N : Num} castU nd f l k (g : grid N) dims i t cs, cell_asked castU nd f l k g i ->
  (forall t', asked f l k t' -> t' = t) -> (forall cs', numbers castU nd t cs' -> cs' = cs) ->
  g_sh g = mk_shape dims -> dims <> [] -> box_size dims < 4294967296 -> in_box dims cs -> i = cell_number dims cs.
Proof.
  intros N castU nd f l k g dims i t cs [t' [cs' [A [B C]]]] Ht Hc Hs Hne Hlt Hin. rewrite (Ht _ A) in B. rewrite (Hc _ B), Hs in C.
  rewrite (coord2idx_eq dims cs Hne Hlt Hin) in C. injection C as <-. reflexivity.
Qed.
Theorem C98_start_outside : forall w h x y, 1 <= w -> 1 <= h -> w * h < 4294967296 -> 0 <= x < 4294967296 -> 0 <= y -> x + w * y < w * h ->
  coord2idx (mk_shape [w; h]) [x; y] = Ok (cell_number [w; h] [x mod w; y + x / w]) /\ in_box [w; h] [x mod w; y + x / w].
Proof.
  intros w h x y Hw Hh Hwh Hx Hy H. pose proof (Z.div_mod x w ltac:(lia)) as E. pose proof (Z.mod_pos_bound x w ltac:(lia)) as B. pose proof (Z.div_pos x w ltac:(lia) ltac:(lia)) as P.
  split.
  - rewrite mk_shape_eq by (try (repeat (constructor; [lia|]); constructor); cbn; lia). unfold coord2idx. cbn [s_dims s_d List.length pps cell_number coord2idx_loop].
    rewrite Z.eqb_refl. cbn [negb]. rewrite Z.mul_1_l. rewrite (u32_small (y * w)) by nia. rewrite u32_small by nia. f_equal. nia.
  - assert (Hyx : y + x / w < h) by nia. constructor; [lia|]. constructor; [lia|constructor].
Qed.

(** C98: a map loaded from grid.text loses the leaf size written in its file: the cells have
    the size grid.leafsize gives, 1 when it is absent *)
Theorem C98_leaf_size_of_the_map_is_ignored : forall {N : Num} castU castD readD image textfile nd f l (g : grid N) p (one : N),
  map_asked castU castD readD image textfile nd f l g -> ~ mentions l (str "grid.file") -> In (str "grid.text", p) l -> ~ mentions l (str "grid.leafsize") -> castD (str "1") = Some one ->
  exists g0, loadMapFromText readD nd (textfile p) empty_grid = Ok (1, g0) /\ g_cells g = g_cells g0 /\ g_sh g = g_sh g0 /\ g_leaf g = one.
Proof.
  intros N castU castD readD image textfile nd f l g p one [lt [leaf [g0 [A [B [-> [_ [C _]]]]]]]] Hf Hp Hl H1. exists g0. split; [exact (C Hf p Hp)|]. split; [reflexivity|]. split; [reflexivity|].
  cbn [setLeafSize g_leaf]. destruct A as [A|[_ A]]; [exfalso; apply Hl; exists lt; exact A|].
  assert (E : lt = str "1") by (unfold default_value in A; repeat (destruct A as [[A ->]|A]; [first [discriminate A|reflexivity]|]); destruct A as [A _]; discriminate A).
  subst lt. congruence.
Qed.

(** C98: the default name of the benchmark.  For a file DIR/NAME.EXT, and for NAME without
    extension, it is NAME. *)
Lemma basename_dir : forall d b, ~ In "/"%char b -> basename (d ++ "/"%char :: b) = b.
Proof.
  intros d b Hb. assert (E : basename b = b).
  { destruct b as [|c b]; [reflexivity|]. cbn [basename]. destruct (existsb (Ascii.eqb "/"%char) (c :: b)) eqn:E; [|reflexivity].
    exfalso. apply Hb. apply existsb_exists in E. destruct E as [x [Hx E]]. apply Ascii.eqb_eq in E. subst x. exact Hx. }
  induction d as [|c d IH]; cbn [app basename].
  - change (existsb (Ascii.eqb "/"%char) ("/"%char :: b)) with true. cbn [existsb]. exact E.
  - assert (X : existsb (Ascii.eqb "/"%char) (c :: d ++ "/"%char :: b) = true).
    { apply existsb_exists. exists "/"%char. split; [right; apply in_or_app; right; left; reflexivity|reflexivity]. }
    rewrite X. exact IH.
Qed.
Lemma basename_none : forall b, ~ In "/"%char b -> basename b = b.
Proof.
  intros b Hb. destruct b as [|c b]; [reflexivity|]. cbn [basename]. destruct (existsb (Ascii.eqb "/"%char) (c :: b)) eqn:E; [|reflexivity].
  exfalso. apply Hb. apply existsb_exists in E. destruct E as [x [Hx E]]. apply Ascii.eqb_eq in E. subst x. exact Hx.
Qed.
Lemma stem_none : forall t, ~ In "."%char t -> stem t = None.
Proof.
  induction t as [|c t IH]; intros H; [reflexivity|]. cbn [stem]. rewrite IH by (intros K; apply H; right; exact K).
  destruct (Ascii.eqb_spec c "."%char); [exfalso; apply H; left; assumption|reflexivity].
Qed.
Lemma stem_ext : forall n e, ~ In "."%char e -> stem (n ++ "."%char :: e) = Some n.
Proof.
  induction n as [|c n IH]; intros e H; cbn [app stem]; [rewrite stem_none by exact H; reflexivity|]. rewrite IH by exact H. reflexivity.
Qed.
Theorem C98_default_name : forall dir name ext, ~ In "/"%char (name ++ ext) -> ~ In "."%char ext ->
  let f1 := name ++ "."%char :: ext in let f2 := dir ++ "/"%char :: f1 in
  default_value f1 (str "benchmark.name") name /\ default_value f2 (str "benchmark.name") name /\
  (~ In "."%char name -> default_value name (str "benchmark.name") name /\ default_value (dir ++ "/"%char :: name) (str "benchmark.name") name).
Proof.
  intros dir name ext H1 H2 f1 f2. assert (D : forall f, no_extension f = name -> default_value f (str "benchmark.name") name) by (intros f <-; unfold default_value; tauto).
  assert (Hf1 : ~ In "/"%char f1). { unfold f1. intros K. apply in_app_or in K. destruct K as [K|[K|K]]; [|discriminate K|]; apply H1; apply in_or_app; tauto. }
  assert (Hn : ~ In "/"%char name) by (intros K; apply H1; apply in_or_app; tauto).
  split; [|split].
  - apply D. unfold no_extension. rewrite basename_none by exact Hf1. unfold f1. rewrite stem_ext by exact H2. reflexivity.
  - apply D. unfold no_extension, f2. rewrite basename_dir by exact Hf1. unfold f1. rewrite stem_ext by exact H2. reflexivity.
  - intros Hd. split; apply D; unfold no_extension; [rewrite basename_none by exact Hn|rewrite basename_dir by exact Hn]; rewrite stem_none by exact Hd; reflexivity.
Qed.

(** C98: the objects behind the names (C47 says which name and parameters give which [made]):
    class and heap, strategy (TIME unless given), step -1, tolerance 0, 1000 buckets of total
    width 2, 2^32-1 sweeps unless given; the class name unless a name is given. *)
Theorem C98_solver_objects : forall {N : Num} fuel (n : Z) (x : N) nm,
  let made k name args := construct (N := N) fuel (mkMade k name args) in
  made KFMM None [] = mkBS (cFMM DaryHeap fuel) (fmm_new DaryHeap NOHEUR) (str "FMM") /\ made KFMM (Some nm) [] = mkBS (cFMM DaryHeap fuel) (fmm_new DaryHeap NOHEUR) nm /\
  made KFMMStar None [] = mkBS (cFMM DaryHeap fuel) (fmm_new DaryHeap TIME) (str "FMM*") /\ made KFMMStar (Some nm) [AStrat STIME] = mkBS (cFMM DaryHeap fuel) (fmm_new DaryHeap TIME) nm /\
  made KFMMStar (Some nm) [AStrat SDISTANCE] = mkBS (cFMM DaryHeap fuel) (fmm_new DaryHeap DISTANCE) nm /\
  made KFMMFib (Some nm) [] = mkBS (cFMM FibHeap fuel) (fmm_new FibHeap NOHEUR) nm /\ made KFMMFibStar (Some nm) [] = mkBS (cFMM FibHeap fuel) (fmm_new FibHeap TIME) nm /\
  made KFMMFibStar (Some nm) [AStrat SDISTANCE] = mkBS (cFMM FibHeap fuel) (fmm_new FibHeap DISTANCE) nm /\
  made KSFMM (Some nm) [] = mkBS (cFMM StdHeap fuel) (fmm_new StdHeap NOHEUR) nm /\ made KSFMMStar (Some nm) [] = mkBS (cFMM StdHeap fuel) (fmm_new StdHeap TIME) nm /\
  made KSFMMStar (Some nm) [AStrat SDISTANCE] = mkBS (cFMM StdHeap fuel) (fmm_new StdHeap DISTANCE) nm /\
  made KGMM None [] = mkBS (cGMM fuel) (gmm_new (nsub n0 n1)) (str "GMM") /\ made KGMM (Some nm) [ADbl x] = mkBS (cGMM fuel) (gmm_new x) nm /\
  made KFIM None [] = mkBS (cFIM fuel) (fim_new n0) (str "FIM") /\ made KFIM (Some nm) [ADbl x] = mkBS (cFIM fuel) (fim_new x) nm /\
  made KUFMM None [] = mkBS (cUFMM fuel) (ufmm_new 1000 (nofZ 2)) (str "UFMM") /\ made KUFMM (Some nm) [AUns n] = mkBS (cUFMM fuel) (ufmm_new n (nofZ 2)) nm /\
  made KUFMM (Some nm) [AUns n; ADbl x] = mkBS (cUFMM fuel) (ufmm_new n x) nm /\
  made KFSM None [] = mkBS (cFSM fuel) (fsm_new 4294967295) (str "FSM") /\ made KFSM (Some nm) [AUns n] = mkBS (cFSM fuel) (fsm_new n) nm /\
  made KLSM None [] = mkBS (cLSM fuel) (fsm_new 4294967295) (str "LSM") /\ made KLSM (Some nm) [AUns n] = mkBS (cLSM fuel) (fsm_new n) nm /\
  made KDDQM None [] = mkBS (cDDQM fuel) ddqm_new (str "DDQM").
Proof. intros. repeat split. Qed.

(** ** cases *)
Definition c98_double (t : text) : option F64 := if text_eqb t (str "1") then Some n1 else if text_eqb t (str "0.5") then Some half64 else if text_eqb t (str "2") then Some (nofZ 2) else None.
Definition c98_cfg : list (text * text) :=
  [(str "grid.dimsize", str "3,2"); (str "problem.start", str "1,0"); (str "problem.goal", str "2,1"); (str "benchmark.name", str "t"); (str "benchmark.runs", str "2"); (str "benchmark.savegrid", str "2");
   (str "solvers.FMM", []); (str "solvers.fsm", str "Sweep"); (str "solvers.astar", [])].
Definition c98_map : text := str "FMCell - Fast Marching cell
0.5
2
3	
2	
1
1
1
1
1
2".
Definition c98_files (t : text) : option (list (text * text)) :=
  if text_eqb t (str "dir/t.cfg") then Some c98_cfg else
  if text_eqb t (str "4d.cfg") then Some ((str "grid.ndims", str "4") :: c98_cfg) else
  if text_eqb t (str "nostart.cfg") then Some [(str "solvers.fmm", [])] else
  if text_eqb t (str "map.x.cfg") then Some [(str "grid.text", str "m.grid"); (str "problem.start", str "0"); (str "benchmark.runs", str "1"); (str "solvers.sfmmstar", [])] else None.
Definition c98_run (args : list text) : res (Z * list (text * text)) :=
  fm_benchmark (readU 4294967296) c98_double show_fin c98_double (fun _ => str "0.1") (fun _ => None) (fun p => if text_eqb p (str "m.grid") then Some c98_map else None) 100 100 args c98_files.

Example C98_case :
  unsigned_cast (readU 4294967296) /\ asked (str "dir/t.cfg") c98_cfg (str "grid.cell") (str "FMCell") /\ number_asked (readU 4294967296) (str "dir/t.cfg") c98_cfg (str "grid.ndims") 2 /\
  numbers (readU 4294967296) 2 (str "3,2") [3; 2] /\ numbers (readU 4294967296) 3 (str "5") [5; 5; 5] /\
  c98_run [str "dir/t.cfg"] =
    (let grid := str "FMCell - Fast Marching cell
f
2
3	
2	
f
f
f
f
f
f" in
     Ok (0, [(str "results/t/0001.grid", grid); (str "results/t/0002.grid", grid); (str "results/t/0003.grid", grid); (str "results/t/0004.grid", grid);
             (str "results/t.log", str "t	2	2	3	2	1	1	5
0001	FMM	0.1
0002	FMM	0.1
0003	Sweep	0.1
0004	Sweep	0.1")])) /\
  c98_run [str "4d.cfg"] = Ok (0, []) /\ c98_run [str "nofile"] = Ok (0, []) /\ c98_run [] = Ok (1, []) /\ c98_run [str "nostart.cfg"] = Fail abort /\
  c98_run [str "map.x.cfg"] = Ok (0, [(str "results/map.x.log", str "map.x	1	2	3	2	1	0	nan
0001	SFMM*	0.1")]).
Proof.
  split; [split; [reflexivity|intros t n; apply readU_range]|].
  split; [right; split; [|unfold default_value; tauto]; intros v H; cbn in H; repeat (destruct H as [H|H]; [discriminate H|]); exact H|].
  split; [exists (str "2"); split; [|reflexivity]; right; split; [|unfold default_value; tauto]; intros v H; cbn in H; repeat (destruct H as [H|H]; [discriminate H|]); exact H|].
  assert (NC : forall t, forallb (fun c => negb (Ascii.eqb c comma)) t = true -> ~ In comma t).
  { intros t H K. rewrite forallb_forall in H. specialize (H _ K). rewrite Ascii.eqb_refl in H. discriminate. }
  split; [exists [str "3"; str "2"]; split; [split; [discriminate|split; [repeat constructor; apply NC; reflexivity|reflexivity]]|repeat constructor]|].
  split; [exists [str "5"]; split; [split; [discriminate|split; [repeat constructor; apply NC; reflexivity|reflexivity]]|repeat constructor]|].
  split; [vm_compute; reflexivity|]. split; [vm_compute; reflexivity|]. split; [vm_compute; reflexivity|]. split; [vm_compute; reflexivity|]. split; vm_compute; reflexivity.
Qed.
Definition c98_runs_cfg : list (text * text) := [(str "problem.start", str "0,0"); (str "benchmark.runs", str "many")].
Example C98_unreadable_number_case :
  (forall k, ~ twice (filter is_registered c98_runs_cfg) k) /\ mentions c98_runs_cfg (str "problem.start") /\
  asked (str "r.cfg") c98_runs_cfg (str "grid.cell") (str "FMCell") /\
  number_asked (readU 4294967296) (str "r.cfg") c98_runs_cfg (str "grid.ndims") 2 /\
  number_asked (readU 4294967296) (str "r.cfg") c98_runs_cfg (str "benchmark.savegrid") 0 /\
  asked (str "r.cfg") c98_runs_cfg (str "benchmark.runs") (str "many") /\ readU 4294967296 (str "many") = None.
Proof.
  split.
  { intros k H. assert (T : repeated (map fst (filter is_registered c98_runs_cfg)) = true) by (apply repeated_twice; exists k; exact H). vm_compute in T. discriminate T. }
  split; [exists (str "0,0"); left; reflexivity|].
  split; [right; split; [|unfold default_value; tauto]; intros v H; cbn in H; repeat (destruct H as [H|H]; [discriminate H|]); exact H|].
  split; [exists (str "2"); split; [|reflexivity]; right; split; [|unfold default_value; tauto]; intros v H; cbn in H; repeat (destruct H as [H|H]; [discriminate H|]); exact H|].
  split; [exists (str "0"); split; [|reflexivity]; right; split; [|unfold default_value; tauto]; intros v H; cbn in H; repeat (destruct H as [H|H]; [discriminate H|]); exact H|].
  split; [left; right; left; reflexivity|reflexivity].
Qed.
Print Assumptions C98_does_nothing.
Print Assumptions C98_unreadable_number_aborts.
Print Assumptions C98_log.
Print Assumptions C98_grids.
Print Assumptions C98_start_outside.

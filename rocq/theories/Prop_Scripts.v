(** Prop_Scripts.v - property theorems C94-C97: what the Matlab scripts make of the files the
    library writes, and the library of the files the scripts write. *)
From Coq Require Import Ascii String.
From Verif Require Import Base BaseFacts Num NumF64 Grid GridFacts GridMore GridUpd Spec Obs NumLaws TextModel TextFacts IOModel IOFacts Prop_IO
  ScriptModel ScriptFacts.
Open Scope Z_scope.
Open Scope list_scope.

(** ** specification *)
(** the texts of the numbers: [show] writes x as one word, which [read] reads as [rnd x] *)
Definition writes {N : Num} (show : N -> text) (read : text -> option N) (rnd : N -> N) (x : N) : Prop :=
  show x <> [] /\ (forall ch, In ch (show x) -> is_space ch = false) /\ read (show x) = Some (rnd x).
(** the reader understands whole numbers *)
Definition reads_counts {N : Num} (read : text -> option N) : Prop := forall n, 0 <= n < 4294967296 -> exists x, read (showU n) = Some x.
(** where parseGrid.m puts the cell with coordinates [cs] (counted from 0): subscripts count
    from 1, and for two dimensions they are exchanged *)
Definition subscripts (cs : list Z) : list Z :=
  match cs with [x; y] => [y + 1; x + 1] | _ => map (fun c => c + 1) cs end.
Definition swapped (dims : list Z) : list Z := match dims with [w; h] => [h; w] | _ => dims end.

Lemma words_nl r : words (newline :: r) = words r.
Proof. reflexivity. Qed.
Lemma writes_token {N : Num} show read rnd (x : N) : writes show read rnd x -> is_token (show x).
Proof. intros [H1 [H2 _]]. split; [exact H1|]. apply Forall_forall. exact H2. Qed.
Lemma nth_app_map (A B : Type) (f : A -> B) l i r x : nth_error l i = Some x -> nth_error (map f l ++ r) i = Some (f x).
Proof. intros H. rewrite nth_error_app1 by (rewrite map_length; apply nth_error_Some; congruence). rewrite nth_error_map, H. reflexivity. Qed.
Lemma dims_range dims : proper dims -> box_size dims < 4294967296 -> Forall (fun d => 0 <= d < 4294967296) dims.
Proof.
  intros Hp Hlt. induction Hp as [|d r Hd Hr IH]; [constructor|]. pose proof (box_size_pos r Hr). rewrite box_size_cons in Hlt. constructor; [nia|]. apply IH. nia.
Qed.
Lemma mapM_nth (A B : Type) (f : Z -> res B) (h : A -> B) (l : list A) : (forall k x, nth_error l k = Some x -> f (Z.of_nat k) = Ok (h x)) ->
  mapM f (zseq (List.length l)) = Ok (map h l).
Proof.
  unfold zseq. intros H. assert (K : forall l s, (forall k x, nth_error l k = Some x -> f (Z.of_nat (s + k)) = Ok (h x)) -> mapM f (map Z.of_nat (seq s (List.length l))) = Ok (map h l)).
  { clear. induction l as [|x l IH]; intros s H; [reflexivity|]. cbn [List.length seq map mapM]. rewrite <- (Nat.add_0_r s) at 1. rewrite (H O x eq_refl). cbn [bind].
    rewrite IH; [reflexivity|]. intros k y Hk. replace (S s + k)%nat with (s + S k)%nat by lia. apply H. exact Hk. }
  apply K. exact H.
Qed.

Section G.
Context {N : Num} (showD : N -> text) (read : text -> option N).

(** the numbers at the head of the files *)
Lemma head_dims (leaft : text) dims toks : Forall (fun d => 0 <= d < 4294967296) dims ->
  mapM (fun i => dint (leaft :: showU (Z.of_nat (List.length dims)) :: map showU dims ++ toks) (i + 3)) (zseq (Z.to_nat (Z.of_nat (List.length dims)))) = Ok dims.
Proof.
  intros Hd. rewrite Nat2Z.id. rewrite (mapM_nth _ _ _ (fun d => d)); [rewrite map_id; reflexivity|]. intros k d Hk. unfold dint.
  replace (Z.to_nat (Z.of_nat k + 3 - 1)) with (S (S k)) by lia. cbn [nth_error]. rewrite (nth_app_map _ _ _ _ _ _ d Hk). cbn [must bind].
  rewrite Forall_forall in Hd. rewrite readU_showU by (apply Hd; eapply nth_error_In; exact Hk). reflexivity.
Qed.
Lemma skip_head (leaft nt : text) dims toks : skipn (Z.to_nat (Z.of_nat (List.length dims) + 2)) (leaft :: nt :: map showU dims ++ toks) = toks.
Proof.
  replace (Z.to_nat (Z.of_nat (List.length dims) + 2)) with (S (S (List.length dims))) by lia. cbn [skipn]. rewrite <- (map_length showU dims). rewrite skipn_app, skipn_all, Nat.sub_diag. reflexivity.
Qed.

(** parseGrid.m on any file whose words are a good header and numbers *)
Lemma parseGrid_words : forall first rest leaft leaf dims toks vals,
  ~ In newline first -> words rest = leaft :: showU (Z.of_nat (List.length dims)) :: map showU dims ++ toks ->
  reads_counts read -> read leaft = Some leaf -> Forall2 (fun t v => read t = Some v) toks vals ->
  Forall (fun d => 0 <= d < 4294967296) dims -> Z.of_nat (List.length dims) < 4294967296 ->
  parseGrid read (first ++ newline :: rest) =
  (a <- m_reshape vals dims ;; a <- (if Z.of_nat (List.length dims) =? 2 then m_transpose a else Ok a) ;;
   Ok (mkMG first leaf (Z.of_nat (List.length dims)) dims a)).
Proof.
  intros first rest leaft leaf dims toks vals Hf Hw Hc Hl Hv Hd Hnd. unfold parseGrid. rewrite fgetl_line by exact Hf. rewrite Hw.
  rewrite scanned_all.
  2:{ intros w [<-|[<-|Hin]]; [congruence|destruct (Hc (Z.of_nat (List.length dims)) ltac:(lia)) as [x Hx]; congruence|].
      apply in_app_or in Hin. destruct Hin as [Hin|Hin].
      - apply in_map_iff in Hin. destruct Hin as [d [<- Hin]]. rewrite Forall_forall in Hd. destruct (Hc d (Hd d Hin)) as [x Hx]. congruence.
      - clear - Hv Hin. induction Hv as [|t v toks vals H _ IH]; [destruct Hin|]. destruct Hin as [<-|Hin]; [congruence|auto]. }
  unfold dnum at 1. cbn [nth_error Z.to_nat Z.sub Z.add Z.opp Z.pos_sub must bind]. rewrite Hl. cbn [must bind].
  unfold dint at 1. change (Z.to_nat (2 - 1)) with 1%nat. cbn [nth_error must bind]. rewrite readU_showU by lia. cbn [must bind].
  rewrite head_dims by exact Hd. cbn [bind]. rewrite skip_head. rewrite (mapM_must _ _ read toks vals Hv). cbn [bind]. reflexivity.
Qed.

Lemma fields_words sel (g : grid N) dims file rnd : grid_ok dims g -> proper dims -> box_size dims < 4294967296 ->
  (forall x, x = g_leaf g \/ (exists i c, getCell g i = Ok c /\ x = sel c) -> writes showD read rnd x) ->
  save_cells showD sel g = Ok file ->
  exists rest, file = type_line ++ newline :: rest /\
    words rest = showD (g_leaf g) :: showU (Z.of_nat (List.length dims)) :: map showU dims ++ map showD (map sel (g_cells g)) /\
    Forall2 (fun t v => read t = Some v) (map showD (map sel (g_cells g))) (map rnd (map sel (g_cells g))).
Proof.
  intros [Hgs Hgl] Hp Hlt Hsh H. pose proof (box_size_pos dims Hp) as Hb.
  assert (Hin : forall c, In c (g_cells g) -> writes showD read rnd (sel c)).
  { intros c Hc. apply In_nth_error in Hc. destruct Hc as [n Hn]. apply Hsh. right. exists (Z.of_nat n), c. split; [apply vget_nth; exact Hn|reflexivity]. }
  assert (Hmap : mapM (fun i => c <- getCell g i ;; Ok (newline :: showD (sel c))) (zseq (Z.to_nat (gsize g))) = Ok (map (fun c => newline :: showD (sel c)) (g_cells g))).
  { unfold gsize. rewrite Hgs, mk_shape_eq by auto. cbn [s_n]. replace (Z.to_nat (box_size dims)) with (List.length (g_cells g)) by lia.
    apply mapM_nth. intros k c Hk. assert (E : getCell g (Z.of_nat k) = Ok c) by (apply vget_nth; exact Hk). rewrite E. reflexivity. }
  unfold save_cells, header in H. destruct (getCell g 0) as [c0|]; [|discriminate H]. cbn [bind] in H. rewrite Hmap in H. cbn [bind] in H. injection H as <-.
  rewrite Hgs. replace (s_dims (mk_shape dims)) with dims by (rewrite mk_shape_eq by auto; reflexivity).
  eexists. split; [repeat (rewrite <- app_assoc; cbn [app]); reflexivity|].
  assert (Hleaf : is_token (showD (g_leaf g))) by (apply (writes_token _ read rnd); apply Hsh; left; reflexivity).
  split.
  - rewrite words_tok; [|exact Hleaf|reflexivity].
    f_equal. rewrite words_nl. rewrite words_tok; [|apply showU_token|].
    + f_equal. rewrite <- (app_nil_r (List.concat _)).
      rewrite (words_entries _ showU [newline] [tab]); [|discriminate|repeat constructor|repeat constructor|intros; apply showU_token|destruct (g_cells g); reflexivity].
      f_equal. rewrite <- flat_map_concat_map.
      rewrite (flat_map_ext _ (fun c => [newline] ++ showD (sel c) ++ [])) by (intros a; rewrite app_nil_r; reflexivity).
      rewrite (words_entries _ (fun c => showD (sel c)) [newline] []); [cbn [words]; rewrite app_nil_r, map_map; reflexivity|discriminate|repeat constructor|constructor| |exact Logic.I].
      intros c Hc. apply (writes_token _ read rnd). apply Hin. exact Hc.
    + destruct dims; [destruct (g_cells g); reflexivity|reflexivity].
  - clear - Hin. induction (g_cells g) as [|c l IH]; cbn [map]; constructor; [apply (Hin c (or_introl eq_refl))|]. apply IH. intros x Hx. apply Hin. right. exact Hx.
Qed.
Lemma type_line_one : ~ In newline type_line.
Proof. intros K. assert (F : forallb (fun c => negb (Ascii.eqb c newline)) type_line = true) by reflexivity. rewrite forallb_forall in F. specialize (F _ K). rewrite Ascii.eqb_refl in F. discriminate. Qed.

Lemma reshape_ok (T : Type) (data : list T) dims : (2 <= List.length dims)%nat -> Z.of_nat (List.length data) = box_size dims -> m_reshape data dims = Ok (mkM dims data).
Proof.
  intros H2 H. unfold m_reshape. destruct (Z.leb_spec 2 (Z.of_nat (List.length dims))); [|lia]. change (fold_right Z.mul 1 dims) with (box_size dims).
  rewrite H, Z.eqb_refl. reflexivity.
Qed.
Lemma reshape_bad (T : Type) (data : list T) dims : (List.length dims < 2)%nat \/ Z.of_nat (List.length data) <> box_size dims -> m_reshape data dims = merror.
Proof.
  intros H. unfold m_reshape. change (fold_right Z.mul 1 dims) with (box_size dims). destruct (Z.leb_spec 2 (Z.of_nat (List.length dims))); [|reflexivity].
  destruct (Z.eqb_spec (box_size dims) (Z.of_nat (List.length data))); [|reflexivity]. lia.
Qed.

(** Reading the numbers of a good file into an array. *)
Lemma shaped dims (vals : list N) : (2 <= List.length dims)%nat -> proper dims -> Z.of_nat (List.length vals) = box_size dims ->
  exists a, (a <- m_reshape vals dims ;; (if Z.of_nat (List.length dims) =? 2 then m_transpose a else Ok a)) = Ok a /\ m_size a = swapped dims /\
    Z.of_nat (List.length (m_data a)) = box_size dims /\
    forall cs, in_box dims cs -> m_at a (subscripts cs) = nth_error vals (Z.to_nat (cell_number dims cs)).
Proof.
  intros H2 Hp Hl. rewrite reshape_ok by auto. cbn [bind]. destruct (Z.eqb_spec (Z.of_nat (List.length dims)) 2) as [E|E].
  - destruct dims as [|w [|h [|? ?]]]; cbn [List.length] in *; try lia. inversion Hp as [|? ? Hw Hp']; subst. inversion Hp' as [|? ? Hh _]; subst.
    assert (Hl' : Z.of_nat (List.length vals) = w * h) by (rewrite Hl; cbn; lia).
    destruct (m_transpose_ok _ w h vals Hw Hh Hl') as [m [Em [Es [El Ea]]]]. exists m. split; [exact Em|]. split; [exact Es|]. split; [rewrite El; cbn; lia|].
    intros cs Hcs. inversion Hcs as [|? x ? cs1 Hx Hr]; subst. inversion Hr as [|? y ? cs2 Hy Hr2]; subst. inversion Hr2; subst. cbn [subscripts].
    rewrite Ea by lia. exact (m_at_cell _ [w; h] vals [x; y] Hcs).
  - exists (mkM dims vals). split; [reflexivity|]. cbn [m_size m_data].
    split; [destruct dims as [|? [|? [|? ?]]]; cbn in *; try lia; reflexivity|]. split; [exact Hl|]. intros cs Hcs.
    replace (subscripts cs) with (map (fun c => c + 1) cs); [apply m_at_cell; exact Hcs|].
    destruct cs as [|x [|y [|z cs]]]; try reflexivity. exfalso. apply E. rewrite (in_box_length _ _ Hcs). reflexivity.
Qed.

(** ** C94: parseGrid.m reads what saveGridValues and saveVelocities write.  The values come
    back, each as its text reads; the cell (x, y, z, ...) is found at (x+1, y+1, z+1, ...),
    but in two dimensions at (y+1, x+1).  One-dimensional grids cannot be read. *)
Theorem C94_parse_grid : forall (sel : cell N -> N) (g : grid N) dims (rnd : N -> N),
  grid_ok dims g -> (2 <= List.length dims)%nat -> Z.of_nat (List.length dims) < 4294967296 -> proper dims -> box_size dims < 4294967296 ->
  reads_counts read ->
  (forall x, x = g_leaf g \/ (exists i c, getCell g i = Ok c /\ x = sel c) -> writes showD read rnd x) ->
  exists file mg, save_cells showD sel g = Ok file /\ parseGrid read file = Ok mg /\
    mg_type mg = type_line /\ mg_leaf mg = rnd (g_leaf g) /\ mg_ndims mg = Z.of_nat (List.length dims) /\ mg_dims mg = dims /\
    m_size (mg_cells mg) = swapped dims /\
    forall cs c, in_box dims cs -> getCell g (cell_number dims cs) = Ok c -> m_at (mg_cells mg) (subscripts cs) = Some (rnd (sel c)).
Proof.
  intros sel g dims rnd Hg H2 Hnd Hp Hlt Hc Hsh. pose proof Hg as [Hgs Hgl]. pose proof (box_size_pos dims Hp) as Hb.
  assert (Hfile : exists file, save_cells showD sel g = Ok file).
  { unfold save_cells, header. destruct (vget_in_range (g_cells g) 0 ltac:(lia)) as [c0 Hc0]. change (vget (g_cells g) 0) with (getCell g 0) in Hc0. rewrite Hc0. cbn [bind].
    replace (Z.to_nat (gsize g)) with (List.length (g_cells g)) by (unfold gsize; rewrite Hgs, mk_shape_eq by auto; cbn [s_n]; lia).
    rewrite (mapM_nth _ _ _ (fun c => newline :: showD (sel c)) (g_cells g)); [cbn [bind]; eauto|].
    intros k c Hk. assert (E : getCell g (Z.of_nat k) = Ok c) by (apply vget_nth; exact Hk). rewrite E. reflexivity. }
  destruct Hfile as [file Hfile]. destruct (fields_words sel g dims file rnd Hg Hp Hlt Hsh Hfile) as [rest [-> [Hw Hv]]].
  destruct (shaped dims (map rnd (map sel (g_cells g))) H2 Hp) as [a [Ea [Es [El Ha]]]]; [rewrite !map_length; exact Hgl|].
  eexists _, _. split; [exact Hfile|]. split.
  - rewrite (parseGrid_words _ _ _ (rnd (g_leaf g)) dims _ (map rnd (map sel (g_cells g))) type_line_one Hw Hc); [|apply Hsh; left; reflexivity|exact Hv|apply dims_range; auto|exact Hnd].
    apply bind_ok in Ea. destruct Ea as [a0 [E0 Ea]]. rewrite E0. cbn [bind]. rewrite Ea. cbn [bind]. reflexivity.
  - cbn [mg_type mg_leaf mg_ndims mg_dims mg_cells]. repeat (split; [reflexivity|]). split; [exact Es|]. intros cs c Hcs Hget. rewrite Ha by exact Hcs.
    apply vget_ok in Hget. destruct Hget as [_ Hget]. rewrite !map_map, nth_error_map, Hget. reflexivity.
Qed.

(** A file that is cut short, or that has something unreadable among the values, is an error
    for parseGrid.m (the C++ loader accepts both, see C60). *)
Theorem C94_short_file : forall first rest leaft leaf dims toks vals more,
  ~ In newline first -> words rest = leaft :: showU (Z.of_nat (List.length dims)) :: map showU dims ++ toks ++ more ->
  more = [] \/ (exists bad r, more = bad :: r /\ read bad = None) ->
  reads_counts read -> read leaft = Some leaf -> Forall2 (fun t v => read t = Some v) toks vals ->
  Forall (fun d => 0 <= d < 4294967296) dims -> Z.of_nat (List.length dims) < 4294967296 ->
  Z.of_nat (List.length toks) <> box_size dims \/ (List.length dims < 2)%nat ->
  parseGrid read (first ++ newline :: rest) = Fail (Exit 1).
Proof.
  intros first rest leaft leaf dims toks vals more Hf Hw Hm Hc Hl Hv Hd Hnd Hbad. unfold parseGrid. rewrite fgetl_line by exact Hf. rewrite Hw.
  assert (Hr : forall w, In w (leaft :: showU (Z.of_nat (List.length dims)) :: map showU dims ++ toks) -> read w <> None).
  { intros w [<-|[<-|Hin]]; [congruence|destruct (Hc (Z.of_nat (List.length dims)) ltac:(lia)) as [x Hx]; congruence|].
      apply in_app_or in Hin. destruct Hin as [Hin|Hin].
      - apply in_map_iff in Hin. destruct Hin as [d [<- Hin]]. rewrite Forall_forall in Hd. destruct (Hc d (Hd d Hin)) as [x Hx]. congruence.
      - clear - Hv Hin. induction Hv as [|t v toks vals H _ IH]; [destruct Hin|]. destruct Hin as [<-|Hin]; [congruence|auto]. }
  assert (ES : scanned read (leaft :: showU (Z.of_nat (List.length dims)) :: map showU dims ++ toks ++ more) = leaft :: showU (Z.of_nat (List.length dims)) :: map showU dims ++ toks).
  { rewrite (app_assoc (map showU dims)). destruct Hm as [->|[bad [r [-> Hb]]]].
    - rewrite app_nil_r. apply scanned_all. exact Hr.
    - apply (scanned_stop _ read (leaft :: showU (Z.of_nat (List.length dims)) :: map showU dims ++ toks)); [exact Hr|exact Hb]. }
  rewrite ES. unfold dnum at 1. cbn [nth_error Z.to_nat Z.sub Z.add Z.opp Z.pos_sub must bind]. rewrite Hl. cbn [must bind].
  unfold dint at 1. change (Z.to_nat (2 - 1)) with 1%nat. cbn [nth_error must bind]. rewrite readU_showU by lia. cbn [must bind].
  rewrite head_dims by exact Hd. cbn [bind]. rewrite skip_head. rewrite (mapM_must _ _ read toks vals Hv). cbn [bind].
  assert (Hlv : List.length vals = List.length toks) by (clear - Hv; induction Hv; cbn; congruence).
  rewrite reshape_bad by (rewrite Hlv; tauto). reflexivity.
Qed.

(** ** C95: saveGridToFile.m and the C++ loader *)
Context (show6 show2 : N -> text).

Lemma save_words (m : marray N) leaf : (forall x, In x (m_data m) -> is_token (show2 x)) -> is_token (match leaf with Some l => show6 l | None => str "1.0" end) ->
  exists rest, saveGridToFile show6 show2 m leaf = str "FMCell - Fast Marching Cell" ++ newline :: rest /\
    words rest = (match leaf with Some l => show6 l | None => str "1.0" end) :: showU (Z.of_nat (List.length (m_dims m))) :: map showU (m_dims m) ++ map show2 (m_data m).
Proof.
  intros Hd Hl. eexists. split; [reflexivity|]. rewrite words_tok; [|exact Hl|reflexivity]. f_equal. cbn [app]. rewrite words_nl.
  rewrite words_tok; [|apply showU_token|reflexivity]. f_equal. rewrite words_nl.
  rewrite (words_ended _ showU [newline]); [|discriminate|repeat constructor|intros; apply showU_token]. f_equal.
  rewrite <- (app_nil_r (flat_map _ (m_data m))). rewrite (words_ended _ show2 [newline]); [cbn [words]; apply app_nil_r|discriminate|repeat constructor|exact Hd].
Qed.
Lemma m_first_one : ~ In newline (str "FMCell - Fast Marching Cell").
Proof. intros K. assert (F : forallb (fun c => negb (Ascii.eqb c newline)) (str "FMCell - Fast Marching Cell") = true) by reflexivity. rewrite forallb_forall in F. specialize (F _ K). rewrite Ascii.eqb_refl in F. discriminate. Qed.

Lemma drop_ones_box l : box_size (drop_ones l) = box_size l.
Proof.
  induction l as [|d l IH]; [reflexivity|]. cbn [drop_ones]. rewrite box_size_cons, <- IH. destruct (drop_ones l) as [|a r] eqn:E.
  - destruct (Z.eqb_spec d 1) as [->|]; cbn; lia.
  - rewrite box_size_cons. reflexivity.
Qed.
Lemma m_dims_box (m : marray N) : box_size (m_dims m) = box_size (m_size m).
Proof. unfold m_dims. destruct (m_size m) as [|a [|b r]]; [reflexivity|reflexivity|]. rewrite !box_size_cons, drop_ones_box. reflexivity. Qed.
Lemma drop_ones_proper l : proper l -> proper (drop_ones l).
Proof.
  induction 1 as [|d l Hd _ IH]; [constructor|]. cbn [drop_ones]. destruct (drop_ones l) as [|a r]; [|constructor; assumption].
  destruct (Z.eqb_spec d 1); [constructor|repeat constructor; exact Hd].
Qed.
Lemma m_dims_proper (m : marray N) : proper (m_size m) -> proper (m_dims m).
Proof.
  unfold m_dims, proper. destruct (m_size m) as [|a [|b r]]; intros H; auto. inversion H as [|? ? H1 H']; subst. inversion H' as [|? ? H3 H4]; subst.
  repeat (constructor; [assumption|]). apply drop_ones_proper. exact H4.
Qed.
Lemma m_dims_len (m : marray N) : (List.length (m_dims m) <= List.length (m_size m))%nat.
Proof.
  assert (K : forall l, (List.length (drop_ones l) <= List.length l)%nat).
  { induction l as [|d l IH]; [cbn; lia|]. cbn [drop_ones]. destruct (drop_ones l); [destruct (d =? 1); cbn; lia|cbn in *; lia]. }
  unfold m_dims. destruct (m_size m) as [|a [|b r]]; cbn; try lia. specialize (K r). lia.
Qed.

(** what is asked of an array: sizes, as many elements as they say, and printable elements *)
Definition array_ok (rnd : N -> N) (m : marray N) : Prop :=
  (2 <= List.length (m_size m))%nat /\ Z.of_nat (List.length (m_size m)) < 4294967296 /\ proper (m_size m) /\ box_size (m_size m) < 4294967296 /\
  Z.of_nat (List.length (m_data m)) = box_size (m_size m) /\
  (forall x, In x (m_data m) -> writes show2 read rnd x).

(** The C++ loader gives cell (x, y, z, ...) the velocity A(x+1, y+1, z+1, ...), for every
    number of dimensions, as '%.2f' writes it.  The number of dimensions to ask for is that
    of the array without trailing sizes of one. *)
Theorem C95_load_saved_array : forall (m : marray N) (leaf : option N) leafv (rnd : N -> N) (g0 : grid N),
  array_ok rnd m ->
  is_token (match leaf with Some l => show6 l | None => str "1.0" end) -> read (match leaf with Some l => show6 l | None => str "1.0" end) = Some leafv ->
  exists g', loadMapFromText read (List.length (m_dims m)) (Some (saveGridToFile show6 show2 m leaf)) g0 = Ok (1, g') /\
    grid_ok (m_dims m) g' /\ g_leaf g' = leafv /\ g_clean g' = true /\ obstacles_listed g' /\
    forall cs, in_box (m_dims m) cs -> exists x c,
      m_at (mkM (m_dims m) (m_data m)) (map (fun c => c + 1) cs) = Some x /\ getCell g' (cell_number (m_dims m) cs) = Ok c /\ c_occ c = rnd x /\ c_val c = ninf /\ c_state c = OPEN.
Proof.
  intros m leaf leafv rnd g0 [H2 [Hnd [Hp [Hlt [Hl Hsh]]]]] Hlt1 Hlr.
  assert (Htok : forall x, In x (m_data m) -> is_token (show2 x)) by (intros x Hx; apply (writes_token _ read rnd); apply Hsh; exact Hx).
  destruct (save_words m leaf Htok Hlt1) as [rest [E Hw]]. rewrite E.
  assert (Hv : Forall2 (fun t v => read t = Some v) (map show2 (m_data m)) (map rnd (m_data m))).
  { clear - Hsh. induction (m_data m) as [|x l IH]; cbn [map]; constructor; [apply (Hsh x (or_introl eq_refl))|]. apply IH. intros y Hy. apply Hsh. right. exact Hy. }
  assert (Hlt' : box_size (m_dims m) < 4294967296) by (rewrite m_dims_box; exact Hlt).
  pose proof (m_dims_len m) as Hle.
  rewrite (load_words read _ rest _ leafv (m_dims m) _ (map rnd (m_data m)) g0 m_first_one Hw Hlr Hv); [|apply m_dims_proper; exact Hp|exact Hlt'|lia|rewrite map_length, m_dims_box; exact Hl].
  destruct (load_values g0 (m_dims m) leafv (map rnd (m_data m))) as [g2 [obs [EL [L1 [_ [L4 [L5 [L6 L7]]]]]]]]; [apply m_dims_proper; exact Hp|exact Hlt'|rewrite map_length, m_dims_box; exact Hl|].
  rewrite EL. cbn [bind]. eexists. split; [reflexivity|]. split; [exact L1|]. split; [exact L4|]. split; [exact L5|]. split; [exact L7|].
  intros cs Hcs. rewrite m_at_cell by exact Hcs. pose proof (cell_number_range _ _ Hcs) as Hr.
  destruct (nth_error (m_data m) (Z.to_nat (cell_number (m_dims m) cs))) as [x|] eqn:Ex; [|apply nth_error_None in Ex; rewrite m_dims_box in Hr; lia].
  exists x. eexists. split; [reflexivity|]. split; [apply (L6 _ (rnd x)); [rewrite nth_error_map, Ex; reflexivity|lia]|]. split; [|split]; reflexivity.
Qed.

Lemma drop_ones_last r d : drop_ones (r ++ [d]) = if d =? 1 then drop_ones r else r ++ [d].
Proof.
  induction r as [|a r IH]; [cbn; destruct (d =? 1); reflexivity|]. cbn [app drop_ones]. rewrite IH. destruct (Z.eqb_spec d 1); [reflexivity|].
  destruct (r ++ [d]) eqn:E; [destruct r; discriminate|]. reflexivity.
Qed.

(** An array with three sizes or more whose last is one is written with fewer dimensions: a
    program that expects as many dimensions as the array was made with exits. *)
Theorem C95_single_layer_is_lost : forall (a b : Z) (r : list Z) (data : list N) (leaf : option N) leafv (rnd : N -> N) (g0 : grid N),
  let m := mkM (a :: b :: r ++ [1]) data in
  array_ok rnd m ->
  is_token (match leaf with Some l => show6 l | None => str "1.0" end) -> read (match leaf with Some l => show6 l | None => str "1.0" end) = Some leafv ->
  loadMapFromText read (List.length (m_size m)) (Some (saveGridToFile show6 show2 m leaf)) g0 = Fail (Exit 1).
Proof.
  intros a b r data leaf leafv rnd g0 m [H2 [Hnd [Hp [Hlt [Hl Hsh]]]]] Hlt1 Hlr.
  assert (Htok : forall x, In x (m_data m) -> is_token (show2 x)) by (intros x Hx; apply (writes_token _ read rnd); apply Hsh; exact Hx).
  destruct (save_words m leaf Htok Hlt1) as [rest [E Hw]]. rewrite E. unfold loadMapFromText.
  assert (Es : skip_line (mkIn (str "FMCell - Fast Marching Cell" ++ newline :: rest) true) = mkIn rest true) by (unfold skip_line; cbn [in_good in_rest]; rewrite cut_line by exact m_first_one; reflexivity).
  rewrite Es. match type of Hw with words rest = ?W => assert (Hs : stream_of W (mkIn rest true)) by (split; [exact Hw|reflexivity]) end.
  destruct (extract_word _ read n0 _ None _ _ leafv Hs Hlr) as [s1 [E1 Hs1]]. rewrite E1.
  assert (Hlen : (List.length (m_dims m) < List.length (m_size m))%nat).
  { unfold m_dims. cbn [m m_size]. cbn [List.length]. rewrite drop_ones_last. cbn [Z.eqb Pos.eqb]. rewrite app_length. cbn [List.length].
    assert (K : forall l, (List.length (drop_ones l) <= List.length l)%nat).
    { induction l as [|d l IH]; [cbn; lia|]. cbn [drop_ones]. destruct (drop_ones l); [destruct (d =? 1); cbn; lia|cbn in *; lia]. }
    specialize (K r). lia. }
  destruct (extract_word _ (readU 18446744073709551616) 0 _ None _ _ (Z.of_nat (List.length (m_dims m))) Hs1) as [s2 [E2 Hs2]]; [apply readU_showU; lia|]. rewrite E2.
  cbn [use bind]. destruct (Z.eqb_spec (Z.of_nat (List.length (m_dims m))) (Z.of_nat (List.length (m_size m)))); [lia|]. reflexivity.
Qed.

(** Saving a map's velocities in C++, reading them in Matlab, writing the array back and
    loading it in C++ exchanges the axes of a two-dimensional map; with three or more
    dimensions every cell comes back (twice rounded), if the last dimension is not one. *)
Definition moved (cs : list Z) : list Z := match cs with [x; y] => [y; x] | _ => cs end.

Lemma m_dims_same (dims : list Z) data : (2 <= List.length dims)%nat -> List.length dims = 2%nat \/ last dims 0 <> 1 -> m_dims (mkM dims data : marray N) = dims.
Proof.
  intros H2 H. unfold m_dims. cbn [m_size]. destruct dims as [|a [|b r]]; [cbn in H2; lia|cbn in H2; lia|]. do 2 f_equal.
  destruct r as [|c r]; [reflexivity|]. destruct H as [H|H]; [cbn in H; lia|]. cbn [last] in H.
  destruct (exists_last (l := c :: r)) as [r' [d E]]; [discriminate|]. assert (Hd : d <> 1).
  { intros ->. apply H. change (last (c :: r) 0 = 1). rewrite E. apply last_last. }
  rewrite E. rewrite drop_ones_last. destruct (Z.eqb_spec d 1); [contradiction|reflexivity].
Qed.

Theorem C95_through_matlab_and_back : forall (g g0 : grid N) dims (rnd rnd2 : N -> N) (leaf : option N) leafv,
  grid_ok dims g -> (2 <= List.length dims)%nat -> Z.of_nat (List.length dims) < 4294967296 -> proper dims -> box_size dims < 4294967296 ->
  (List.length dims = 2%nat \/ last dims 0 <> 1) -> reads_counts read ->
  (forall x, x = g_leaf g \/ (exists i c, getCell g i = Ok c /\ x = c_occ c) -> writes showD read rnd x) ->
  (forall i c, getCell g i = Ok c -> writes show2 read rnd2 (rnd (c_occ c))) ->
  is_token (match leaf with Some l => show6 l | None => str "1.0" end) -> read (match leaf with Some l => show6 l | None => str "1.0" end) = Some leafv ->
  exists file mg g', saveVelocities showD g = Ok file /\ parseGrid read file = Ok mg /\
    loadMapFromText read (List.length dims) (Some (saveGridToFile show6 show2 (mg_cells mg) leaf)) g0 = Ok (1, g') /\
    grid_ok (swapped dims) g' /\
    forall cs c, in_box dims cs -> getCell g (cell_number dims cs) = Ok c ->
      exists c', getCell g' (cell_number (swapped dims) (moved cs)) = Ok c' /\ c_occ c' = rnd2 (rnd (c_occ c)).
Proof.
  intros g g0 dims rnd rnd2 leaf leafv Hg H2 Hnd Hp Hlt Hlast Hc Hsh Hsh2 Hlt1 Hlr. pose proof Hg as [Hgs Hgl]. pose proof (box_size_pos dims Hp) as Hb.
  destruct (C94_parse_grid c_occ g dims rnd Hg H2 Hnd Hp Hlt Hc Hsh) as [file [mg [Hf [Hpg [_ [_ [_ [_ [Es Ha]]]]]]]]].
  assert (Hsw : proper (swapped dims) /\ box_size (swapped dims) = box_size dims /\ List.length (swapped dims) = List.length dims).
  { destruct dims as [|w [|h [|? ?]]]; cbn [swapped]; repeat split; auto; [inversion Hp as [|? ? Q1 Q2]; inversion Q2; subst; repeat constructor; auto|cbn; lia]. }
  destruct Hsw as [Sp [Sb Sl]].
  assert (Hcell : forall cs, in_box dims cs -> exists c, getCell g (cell_number dims cs) = Ok c).
  { intros cs Hcs. apply vget_in_range. rewrite Hgl. apply cell_number_range. exact Hcs. }
  assert (Hm : m_dims (mg_cells mg) = swapped dims).
  { destruct (mg_cells mg) as [sz dt]. cbn [m_size] in Es. subst sz. apply m_dims_same; [lia|]. destruct Hlast as [Hl|Hl]; [left; lia|].
    destruct dims as [|w [|h [|? ?]]]; try (right; exact Hl). left. reflexivity. }
  (* the elements of the array *)
  assert (Hdata : Z.of_nat (List.length (m_data (mg_cells mg))) = box_size dims /\ forall x, In x (m_data (mg_cells mg)) -> exists i c, getCell g i = Ok c /\ x = rnd (c_occ c)).
  { unfold parseGrid in Hpg. destruct (fields_words c_occ g dims file rnd Hg Hp Hlt Hsh Hf) as [rest [-> [Hw Hv]]].
    fold (parseGrid read (type_line ++ newline :: rest)) in Hpg.
    rewrite (parseGrid_words _ _ _ (rnd (g_leaf g)) dims _ (map rnd (map c_occ (g_cells g))) type_line_one Hw Hc) in Hpg; [|apply Hsh; left; reflexivity|exact Hv|apply dims_range; auto|exact Hnd].
    destruct (shaped dims (map rnd (map c_occ (g_cells g))) H2 Hp) as [a [Ea [Es' [El Ha']]]]; [rewrite !map_length; exact Hgl|].
    apply bind_ok in Ea. destruct Ea as [a0 [E0 Ea]]. rewrite E0 in Hpg. cbn [bind] in Hpg. rewrite Ea in Hpg. cbn [bind] in Hpg. injection Hpg as <-. cbn [mg_cells].
    split; [exact El|]. intros x Hx. apply In_nth_error in Hx. destruct Hx as [k Hk].
    assert (Hkr : 0 <= Z.of_nat k < box_size (swapped dims)).
    { split; [lia|]. rewrite Sb, <- El. apply Nat2Z.inj_lt, nth_error_Some. congruence. }
    pose proof (coords_of_in_box (swapped dims) (Z.of_nat k) Sp Hkr) as Hbox. pose proof (cell_number_coords_of (swapped dims) (Z.of_nat k) Sp Hkr) as Hnum.
    set (cs' := coords_of (swapped dims) (Z.of_nat k)) in *.
    assert (Hcs : in_box dims (moved cs') /\ subscripts (moved cs') = map (fun c => c + 1) cs').
    { clear - Hbox H2. destruct dims as [|w [|h [|? ?]]]; cbn [swapped List.length] in *; try lia.
      - inversion Hbox as [|? y ? q Hy Hr]; subst. inversion Hr as [|? x ? q' Hx Hr']; subst. inversion Hr'; subst. cbn [moved subscripts map]. split; [repeat constructor; lia|reflexivity].
      - pose proof (in_box_length _ _ Hbox) as Hlen. destruct cs' as [|? [|? [|? ?]]]; cbn in Hlen; try discriminate. cbn [moved subscripts]. split; [exact Hbox|reflexivity]. }
    destruct Hcs as [Hcs Esub]. specialize (Ha' _ Hcs). rewrite Esub in Ha'. destruct a as [sz dt]. cbn [m_size m_data] in *. subst sz.
    rewrite (m_at_cell _ (swapped dims) dt cs' Hbox), Hnum, Nat2Z.id, Hk in Ha'. rewrite !map_map, nth_error_map in Ha'.
    destruct (nth_error (g_cells g) (Z.to_nat (cell_number dims (moved cs')))) as [c|] eqn:Ec; [|discriminate Ha']. injection Ha' as Ha'.
    exists (cell_number dims (moved cs')), c. split; [|exact Ha']. apply vget_ok. split; [|exact Ec]. pose proof (cell_number_range _ _ Hcs). lia. }
  destruct Hdata as [Hdl Hdin].
  destruct (C95_load_saved_array (mg_cells mg) leaf leafv rnd2 g0) as [g' [E [Gok [_ [_ [_ Hcs']]]]]]; [|exact Hlt1|exact Hlr|].
  { split; [rewrite Es, Sl; exact H2|]. split; [rewrite Es, Sl; exact Hnd|]. split; [rewrite Es; exact Sp|]. split; [rewrite Es, Sb; exact Hlt|]. split; [rewrite Es, Sb; exact Hdl|].
    intros x Hx. destruct (Hdin x Hx) as [i [c [Hi ->]]]. apply (Hsh2 i c Hi). }
  rewrite Hm in *. rewrite Sl in E. exists file, mg, g'. split; [exact Hf|]. split; [exact Hpg|]. split; [exact E|]. split; [exact Gok|].
  intros cs c Hcs Hget. specialize (Ha cs c Hcs Hget).
  assert (Hmv : in_box (swapped dims) (moved cs) /\ subscripts cs = map (fun c => c + 1) (moved cs)).
  { clear - Hcs H2. destruct dims as [|w [|h [|? ?]]]; cbn [swapped List.length] in *; try lia.
    - inversion Hcs as [|? y ? q Hy Hr]; subst. inversion Hr as [|? x ? q' Hx Hr']; subst. inversion Hr'; subst. cbn [moved subscripts map]. split; [repeat constructor; lia|reflexivity].
    - pose proof (in_box_length _ _ Hcs) as Hlen. destruct cs as [|? [|? [|? ?]]]; cbn in Hlen; try discriminate. cbn [moved subscripts]. split; [exact Hcs|reflexivity]. }
  destruct Hmv as [Hmv Esub]. destruct (Hcs' _ Hmv) as [x [c' [Hx [Hc' [Ho _]]]]]. rewrite Esub in Ha. destruct (mg_cells mg) as [sz dt]. cbn [m_size m_data] in *. subst sz.
  rewrite Ha in Hx. injection Hx as <-. exists c'. split; [exact Hc'|exact Ho].
Qed.
End G.

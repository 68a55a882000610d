(** Prop_ScriptPath.v - property theorems C96: paths and indices in Matlab. *)
From Coq Require Import Ascii String.
From Verif Require Import Base BaseFacts Num NumF64 Grid GridFacts GridMore GridUpd Spec Obs NumLaws Examples TextModel TextFacts IOModel IOFacts Prop_IO
  ScriptModel ScriptFacts Prop_Scripts.
Open Scope Z_scope.
Open Scope list_scope.

(** ** groups of numbers *)
Lemma groups_concat (step : nat) : forall (ls : list (list text)) fuel, (0 < step)%nat -> Forall (fun l => List.length l = step) ls ->
  (List.length (List.concat ls) <= fuel)%nat -> groups fuel step (List.concat ls) = ls.
Proof.
  intros ls fuel Hs Hl. revert fuel. induction Hl as [|l ls H _ IH]; intros fuel Hf; [destruct fuel; reflexivity|].
  cbn [List.concat] in *. rewrite app_length in Hf. destruct fuel as [|fuel]; [lia|]. destruct l as [|x l]; [cbn in H; lia|]. cbn [app groups].
  change (x :: l ++ List.concat ls) with ((x :: l) ++ List.concat ls). rewrite firstn_app, skipn_app, H, Nat.sub_diag. rewrite (firstn_all2 (n := step) (x :: l)) by (rewrite H; lia). rewrite (skipn_all2 (n := step) (x :: l)) by (rewrite H; lia).
  cbn [firstn skipn app]. rewrite app_nil_r. f_equal. apply IH. cbn in Hf. lia.
Qed.
Lemma mapM_map (A B C : Type) (f : B -> res C) (h : A -> B) l : mapM f (map h l) = mapM (fun a => f (h a)) l.
Proof. induction l as [|a l IH]; [reflexivity|]. cbn [map mapM]. rewrite IH. reflexivity. Qed.
Lemma mapM_all (A B : Type) (f : A -> res B) (h : A -> B) l : (forall a, In a l -> f a = Ok (h a)) -> mapM f l = Ok (map h l).
Proof.
  induction l as [|a l IH]; intros H; [reflexivity|]. cbn [mapM map]. rewrite (H a (or_introl eq_refl)). cbn [bind]. rewrite IH; [reflexivity|]. intros b Hb. apply H. right. exact Hb.
Qed.
Lemma concat_len (A : Type) (ls : list (list A)) k : Forall (fun l => List.length l = k) ls -> List.length (List.concat ls) = (List.length ls * k)%nat.
Proof. induction 1 as [|l ls H _ IH]; [reflexivity|]. cbn [List.concat List.length]. rewrite app_length, IH, H. lia. Qed.
Lemma Forall2_same (A B C : Type) (P : B -> C -> Prop) (f : A -> B) (h : A -> C) l : (forall x, In x l -> P (f x) (h x)) -> Forall2 P (map f l) (map h l).
Proof. induction l as [|x l IH]; intros H; cbn [map]; constructor; [apply H; left; reflexivity|]. apply IH. intros y Hy. apply H. right. exact Hy. Qed.

Section P.
Context {N : Num} (showD : N -> text) (read : text -> option N).

Lemma path_header_words file leaft leaf dims (toks : list text) :
  words file = leaft :: showU (Z.of_nat (List.length dims)) :: map showU dims ++ toks ->
  reads_counts read -> read leaft = Some leaf -> (forall t, In t toks -> read t <> None) ->
  Forall (fun d => 0 <= d < 4294967296) dims -> Z.of_nat (List.length dims) < 4294967296 ->
  path_header_of read file = Ok (leaft :: showU (Z.of_nat (List.length dims)) :: map showU dims ++ toks, Z.of_nat (List.length dims)).
Proof.
  intros Hw Hc Hl Ht Hd Hnd. unfold path_header_of. rewrite Hw. rewrite scanned_all.
  2:{ intros w [<-|[<-|Hin]]; [congruence|destruct (Hc (Z.of_nat (List.length dims)) ltac:(lia)) as [x Hx]; congruence|].
      apply in_app_or in Hin. destruct Hin as [Hin|Hin]; [|auto].
      apply in_map_iff in Hin. destruct Hin as [d [<- Hin]]. rewrite Forall_forall in Hd. destruct (Hc d (Hd d Hin)) as [x Hx]. congruence. }
  unfold dnum at 1. change (Z.to_nat (1 - 1)) with O. cbn [nth_error must bind]. rewrite Hl. cbn [must bind].
  unfold dint at 1. change (Z.to_nat (2 - 1)) with 1%nat. cbn [nth_error must bind]. rewrite readU_showU by lia. cbn [must bind].
  rewrite head_dims by exact Hd. reflexivity.
Qed.

(** a group of numbers that are all readable *)
Lemma row_read (rnd : N -> N) (p : list N) more : (forall x, In x p -> writes showD read rnd x) ->
  mapM (fun j => x <- dnum read (map showD p ++ more) (j + 1) ;; Ok (plus1 x)) (zseq (List.length p)) = Ok (map (fun x => plus1 (rnd x)) p).
Proof.
  intros H. apply mapM_nth. intros k x Hk. unfold dnum. replace (Z.to_nat (Z.of_nat k + 1 - 1)) with k by lia.
  rewrite (nth_app_map _ _ showD p k more x Hk). cbn [must bind]. destruct (H x (nth_error_In _ _ Hk)) as [_ [_ E]]. rewrite E. reflexivity.
Qed.

Lemma path_words (g : grid N) path rnd : proper (s_dims (g_sh g)) -> writes showD read rnd (g_leaf g) -> Forall (fun p => p <> [] /\ forall x, In x p -> writes showD read rnd x) path ->
  words (savePath showD g path) = showD (g_leaf g) :: showU (Z.of_nat (List.length (s_dims (g_sh g)))) :: map showU (s_dims (g_sh g)) ++ List.concat (map (map showD) path).
Proof.
  intros Hp Hl Hpts. unfold savePath. rewrite words_tok; [|eapply writes_token; exact Hl|reflexivity]. f_equal. cbn [app]. rewrite words_nl.
  assert (Hst : starts_space (flat_map (fun p => newline :: flat_map (fun x => showD x ++ [tab]) p) path)) by (destruct path; reflexivity).
  rewrite words_tok; [|apply showU_token|destruct (s_dims (g_sh g)); [exact Hst|reflexivity]]. f_equal.
  rewrite (words_entries _ showU [newline] [tab]); [|discriminate|repeat constructor|repeat constructor|intros; apply showU_token|exact Hst]. f_equal.
  clear Hst. induction Hpts as [|p path [Hne Hx] _ IH]; [reflexivity|]. cbn [flat_map map List.concat app]. rewrite words_nl.
  rewrite (words_ended _ showD [tab]); [|discriminate|repeat constructor|intros x Hin; eapply writes_token; apply Hx; exact Hin]. rewrite IH. reflexivity.
Qed.

(** parsepath.m gives back the points of the path, each coordinate as its text reads, plus one. *)
Theorem C96_parse_path : forall (strict : bool) (g : grid N) dims path (rnd : N -> N),
  s_dims (g_sh g) = dims -> (1 <= List.length dims)%nat -> Z.of_nat (List.length dims) < 4294967296 -> proper dims -> box_size dims < 4294967296 ->
  reads_counts read -> writes showD read rnd (g_leaf g) ->
  Forall (fun p => List.length p = List.length dims /\ forall x, In x p -> writes showD read rnd x) path ->
  parsepath read strict (savePath showD g path) = Ok (map (map (fun x => nadd (rnd x) n1)) path).
Proof.
  intros strict g dims path rnd Edims H1 Hnd Hp Hlt Hc Hl Hpts.
  assert (Hpts' : Forall (fun p => p <> [] /\ forall x, In x p -> writes showD read rnd x) path).
  { eapply Forall_impl; [|exact Hpts]. intros p [H2 H3]. split; [|exact H3]. intros ->. cbn in H2. lia. }
  unfold parsepath. rewrite (path_header_words _ (showD (g_leaf g)) (rnd (g_leaf g)) dims (List.concat (map (map showD) path))).
  - cbn [bind]. rewrite skip_head. set (D := List.length dims) in *.
    assert (Hg : Forall (fun l => List.length l = D) (map (map showD) path)).
    { apply Forall_forall. intros l Hin. apply in_map_iff in Hin. destruct Hin as [p [<- Hin]]. rewrite map_length. rewrite Forall_forall in Hpts. exact (proj1 (Hpts p Hin)). }
    assert (Hlen : Z.of_nat (List.length (showD (g_leaf g) :: showU (Z.of_nat D) :: map showU dims ++ List.concat (map (map showD) path))) - (Z.of_nat D + 2) = Z.of_nat (List.length path) * Z.of_nat D).
    { cbn [List.length]. rewrite app_length, map_length, (concat_len _ _ D Hg), map_length. fold D. lia. }
    rewrite Hlen. unfold rows. rewrite Z.mod_mul by lia. cbn [Z.eqb negb]. rewrite andb_false_r. cbn [bind]. rewrite Z.div_mul by lia.
    rewrite Nat2Z.id, groups_concat; [|lia|exact Hg|lia]. rewrite mapM_map.
    rewrite (mapM_all _ _ _ (fun p => map (fun x => plus1 (rnd x)) p)).
    + cbn [bind]. unfold fill. rewrite map_length, !Nat2Z.id, Nat.sub_diag. cbn [repeat]. rewrite app_nil_r. reflexivity.
    + intros p Hin. rewrite Forall_forall in Hpts. destruct (Hpts p Hin) as [H2 H3]. rewrite <- H2. rewrite <- (app_nil_r (map showD p)). apply row_read. exact H3.
  - rewrite <- Edims. apply (path_words g path rnd); [rewrite Edims; exact Hp|exact Hl|exact Hpts'].
  - exact Hc.
  - apply Hl.
  - intros t Hin. apply in_concat in Hin. destruct Hin as [l [Hl1 Hl2]]. apply in_map_iff in Hl1. destruct Hl1 as [p [<- Hp1]]. apply in_map_iff in Hl2. destruct Hl2 as [x [<- Hx]].
    rewrite Forall_forall in Hpts. destruct (Hpts p Hp1) as [_ H3]. destruct (H3 x Hx) as [_ [_ E]]. congruence.
  - apply dims_range; auto.
  - exact Hnd.
Qed.

(** parsepathvel.m gives back the points and velocities, but its path array has been made
    for too many points: floor(points / dimensions) rows of zeros follow.  Where fractional
    sizes are refused, a path whose number of points is not a multiple of the number of
    dimensions cannot be read at all. *)
Lemma pathvel_words (g : grid N) path vel rnd t : proper (s_dims (g_sh g)) -> writes showD read rnd (g_leaf g) ->
  Forall (fun p => forall x, In x p -> writes showD read rnd x) path -> Forall (writes showD read rnd) vel -> (List.length path <= List.length vel)%nat ->
  savePathVelocity showD g path vel = Ok t ->
  words t = showD (g_leaf g) :: showU (Z.of_nat (List.length (s_dims (g_sh g)))) :: map showU (s_dims (g_sh g)) ++
            List.concat (map (fun pv => map showD (fst pv) ++ [showD (snd pv)]) (combine path vel)).
Proof.
  intros Hp Hl Hpts Hvel Hle H. unfold savePathVelocity in H.
  assert (EM : mapM (fun ip => v <- vget vel (fst ip) ;; Ok (newline :: flat_map (fun x => showD x ++ [tab]) (snd ip) ++ showD v)) (combine (zseq (List.length path)) path) =
     Ok (map (fun pv => newline :: flat_map (fun x => showD x ++ [tab]) (fst pv) ++ showD (snd pv)) (combine path vel))).
  { clear H. assert (K : forall s path vs, (exists pre, List.length pre = s /\ vel = pre ++ vs) -> (List.length path <= List.length vs)%nat ->
      mapM (fun ip => v <- vget vel (fst ip) ;; Ok (newline :: flat_map (fun x => showD x ++ [tab]) (snd ip) ++ showD v)) (combine (map Z.of_nat (seq s (List.length path))) path) =
      Ok (map (fun pv => newline :: flat_map (fun x => showD x ++ [tab]) (fst pv) ++ showD (snd pv)) (combine path vs))).
    { clear. intros s path. revert s. induction path as [|p path IH]; intros s vs [pre [Hs E]] Hl; [reflexivity|]. destruct vs as [|v vs]; [cbn in Hl; lia|].
      cbn [List.length seq map combine mapM fst snd].
      assert (EV : vget vel (Z.of_nat s) = Ok v). { apply vget_nth. rewrite E, nth_error_app2 by lia. rewrite Hs, Nat.sub_diag. reflexivity. }
      rewrite EV. cbn [bind]. rewrite (IH (S s) vs); [reflexivity| |cbn in Hl; lia]. exists (pre ++ [v]). rewrite app_length, <- app_assoc. cbn. split; [lia|exact E]. }
    apply (K O path vel); [exists []; auto|exact Hle]. }
  rewrite EM in H. cbn [bind] in H. injection H as <-.
  rewrite words_tok; [|eapply writes_token; exact Hl|reflexivity]. f_equal. cbn [app]. rewrite words_nl.
  rewrite <- flat_map_concat_map.
  assert (Hst : starts_space (flat_map (fun pv => newline :: flat_map (fun x => showD x ++ [tab]) (fst pv) ++ showD (snd pv)) (combine path vel))) by (destruct path, vel; reflexivity).
  rewrite words_tok; [|apply showU_token|destruct (s_dims (g_sh g)); [exact Hst|reflexivity]]. f_equal.
  rewrite (flat_map_ext (fun d => newline :: showU d) (fun d => [newline] ++ showU d ++ [])) by (intros d; rewrite app_nil_r; reflexivity).
  rewrite (words_entries _ showU [newline] []); [|discriminate|repeat constructor|constructor|intros; apply showU_token|exact Hst]. f_equal.
  assert (K : Forall (fun pv => (forall x, In x (fst pv) -> writes showD read rnd x) /\ writes showD read rnd (snd pv)) (combine path vel)).
  { apply Forall_forall. intros [p v] Hin. cbn [fst snd]. rewrite Forall_forall in Hpts, Hvel. split; [apply Hpts; eapply in_combine_l; exact Hin|apply Hvel; eapply in_combine_r; exact Hin]. }
  clear - K. induction K as [|[p v] l [H1 H2] _ IH]; [reflexivity|]. cbn [flat_map map List.concat fst snd app] in *. rewrite words_nl. rewrite <- !app_assoc.
  rewrite (words_ended _ showD [tab]); [|discriminate|repeat constructor|intros x Hin; eapply writes_token; apply H1; exact Hin]. f_equal. cbn [app].
  rewrite words_tok; [rewrite IH; reflexivity|eapply writes_token; exact H2|destruct l; reflexivity].
Qed.

Theorem C96_parse_path_and_velocity : forall (strict : bool) (g : grid N) dims path vel (rnd : N -> N) t,
  s_dims (g_sh g) = dims -> (1 <= List.length dims)%nat -> Z.of_nat (List.length dims) < 4294967296 -> proper dims -> box_size dims < 4294967296 ->
  reads_counts read -> writes showD read rnd (g_leaf g) ->
  Forall (fun p => List.length p = List.length dims /\ forall x, In x p -> writes showD read rnd x) path -> Forall (writes showD read rnd) vel ->
  List.length vel = List.length path ->
  savePathVelocity showD g path vel = Ok t ->
  parsepathvel read strict t =
    if strict && negb (Nat.eqb (List.length path mod List.length dims) 0) then Fail (Exit 1)
    else Ok (map (map (fun x => nadd (rnd x) n1)) path ++ repeat (repeat n0 (List.length dims)) (List.length path / List.length dims), map rnd vel).
Proof.
  intros strict g dims path vel rnd t Edims H1 Hnd Hp Hlt Hc Hl Hpts Hvel Hlen Ht.
  assert (Hpts' : Forall (fun p => forall x, In x p -> writes showD read rnd x) path) by (eapply Forall_impl; [|exact Hpts]; intros p [_ H3]; exact H3).
  pose proof (pathvel_words g path vel rnd t ltac:(rewrite Edims; exact Hp) Hl Hpts' Hvel ltac:(lia) Ht) as Hw. rewrite Edims in Hw.
  unfold parsepathvel. rewrite (path_header_words _ _ (rnd (g_leaf g)) dims _ Hw Hc); [|apply Hl| |apply dims_range; auto|exact Hnd].
  2:{ intros w Hin. apply in_concat in Hin. destruct Hin as [l [Hl1 Hl2]]. apply in_map_iff in Hl1. destruct Hl1 as [[p v] [<- Hpv]]. cbn [fst snd] in Hl2.
      apply in_app_or in Hl2. destruct Hl2 as [Hl2|[<-|[]]].
      - apply in_map_iff in Hl2. destruct Hl2 as [x [<- Hx]]. rewrite Forall_forall in Hpts'. destruct (Hpts' p (in_combine_l _ _ _ _ Hpv) x Hx) as [_ [_ E]]. congruence.
      - rewrite Forall_forall in Hvel. destruct (Hvel v (in_combine_r _ _ _ _ Hpv)) as [_ [_ E]]. congruence. }
  cbn [bind]. rewrite skip_head. set (D := List.length dims) in *.
  assert (Hg : Forall (fun l => List.length l = S D) (map (fun pv => map showD (fst pv) ++ [showD (snd pv)]) (combine path vel))).
  { apply Forall_forall. intros l Hin. apply in_map_iff in Hin. destruct Hin as [[p v] [<- Hin]]. cbn [fst snd]. rewrite app_length, map_length. rewrite Forall_forall in Hpts.
    rewrite (proj1 (Hpts p (in_combine_l _ _ _ _ Hin))). cbn. lia. }
  assert (Hcl : List.length (combine path vel) = List.length path) by (rewrite combine_length; lia).
  match goal with |- context [rows strict ?a _] => assert (Ha : a = Z.of_nat (List.length path) * (Z.of_nat D + 1)) end.
  { cbn [List.length]. rewrite app_length, map_length, (concat_len _ _ (S D) Hg), map_length, Hcl. fold D. lia. }
  rewrite Ha. clear Ha. unfold rows.
  assert (Em : (Z.of_nat (List.length path) * (Z.of_nat D + 1)) mod Z.of_nat D = Z.of_nat (List.length path mod D)).
  { rewrite Nat2Z.inj_mod. rewrite Z.mul_add_distr_l, Z.mul_1_r, Z.add_comm, Z_mod_plus_full. reflexivity. }
  assert (Ed : (Z.of_nat (List.length path) * (Z.of_nat D + 1)) / Z.of_nat D = Z.of_nat (List.length path + List.length path / D)).
  { rewrite Nat2Z.inj_add, Nat2Z.inj_div. rewrite Z.mul_add_distr_l, Z.mul_1_r, Z.add_comm, Z.div_add by lia. lia. }
  rewrite Em, Ed. replace (Z.of_nat (List.length path mod D) =? 0) with (Nat.eqb (List.length path mod D) 0).
  2:{ destruct (Nat.eqb_spec (List.length path mod D) 0) as [E|E]; [rewrite E; reflexivity|]. symmetry. apply Z.eqb_neq. lia. }
  destruct (strict && negb (Nat.eqb (List.length path mod D) 0)); [reflexivity|]. cbn [bind].
  replace (Z.to_nat (Z.of_nat D + 1)) with (S D) by lia. rewrite groups_concat; [|lia|exact Hg|lia]. rewrite mapM_map. rewrite Nat2Z.id.
  rewrite (mapM_all _ _ _ (fun pv => (map (fun x => plus1 (rnd x)) (fst pv), rnd (snd pv)))).
  - cbn [bind]. rewrite !map_map. cbn [fst snd].
    assert (E1 : map (fun x => map (fun y => plus1 (rnd y)) (fst x)) (combine path vel) = map (map (fun x => nadd (rnd x) n1)) path).
    { rewrite <- (map_map fst (map (fun y => plus1 (rnd y)))). f_equal. clear - Hlen. revert vel Hlen. induction path as [|p path IH]; intros [|v vel] H; cbn in *; try discriminate; [reflexivity|]. f_equal. apply IH. lia. }
    assert (E2 : map (fun x : list N * N => rnd (snd x)) (combine path vel) = map rnd vel).
    { rewrite <- (map_map snd rnd). f_equal. clear - Hlen. revert vel Hlen. induction path as [|p path IH]; intros [|v vel] H; cbn in *; try discriminate; [reflexivity|]. f_equal. apply IH. lia. }
    rewrite E1, E2. unfold fill. rewrite map_length, !Nat2Z.id. replace (List.length path + List.length path / D - List.length path)%nat with (List.length path / D)%nat by lia. reflexivity.
  - intros [p v] Hin. cbn [fst snd]. rewrite Forall_forall in Hpts, Hvel. destruct (Hpts p (in_combine_l _ _ _ _ Hin)) as [H2 H3].
    rewrite <- H2. rewrite (row_read rnd) by exact H3. cbn [bind]. unfold dnum. replace (Z.to_nat (Z.of_nat (List.length p) + 1 - 1)) with (List.length p) by lia.
    rewrite nth_error_app2 by (rewrite map_length; lia). rewrite map_length, Nat.sub_diag. cbn [nth_error must bind].
    destruct (Hvel v (in_combine_r _ _ _ _ Hin)) as [_ [_ E]]. rewrite E. reflexivity.
Qed.
End P.

(** idx2coord.m is the C++ idx2coord, counted from one. *)
Lemma running_pps a l : running a l = pps a l.
Proof. revert a. induction l as [|k l IH]; intros a; [reflexivity|]. cbn [running pps]. rewrite IH. reflexivity. Qed.
Lemma idx2coord_m_loop_eq dims cs : dims <> [] -> in_box dims cs -> idx2coord_m_loop (cell_number dims cs) (tl (rev (pps 1 dims))) = rev cs.
Proof.
  revert cs; induction dims as [|k dims IH] using rev_ind; intros cs Hne Hb; [congruence|].
  apply in_box_app_inv in Hb; destruct Hb as [c1 [c2 [-> [Hb1 Hb2]]]].
  inversion Hb2 as [|? c ? cr Hc Hr]; subst. inversion Hr; subst.
  rewrite pps_app. cbn [pps]. rewrite rev_app_distr. cbn [rev app tl].
  rewrite cell_number_app by (eapply in_box_length; eauto).
  cbn [cell_number]. rewrite Z.mul_0_r, Z.add_0_r.
  pose proof (box_size_pos dims (in_box_proper _ _ Hb1)) as Hpos.
  pose proof (cell_number_range dims c1 Hb1) as Hrng.
  destruct dims as [|k0 ds].
  - inversion Hb1; subst. cbn. f_equal. destruct c; reflexivity.
  - specialize (IH c1 ltac:(discriminate) Hb1). set (dims := k0 :: ds) in *.
    assert (Hrev : rev (pps 1 dims) = box_size dims :: tl (rev (pps 1 dims))).
    { destruct (exists_last (l := dims) ltac:(discriminate)) as [d' [kk Hd]].
      rewrite Hd, pps_app, rev_app_distr. cbn [pps rev app tl].
      rewrite box_size_app. change (box_size [kk]) with (kk * 1). f_equal; lia. }
    rewrite Hrev. cbn [idx2coord_m_loop].
    assert (Hq : (cell_number dims c1 + box_size dims * c) / box_size dims = c).
    { rewrite Z.mul_comm, Z.div_add by lia. rewrite Z.div_small by lia. lia. }
    rewrite Hq. replace (cell_number dims c1 + box_size dims * c - c * box_size dims) with (cell_number dims c1) by lia. rewrite IH.
    rewrite rev_app_distr. reflexivity.
Qed.
Theorem C96_idx2coord : forall dims i cs,
  (2 <= List.length dims)%nat -> proper dims -> box_size dims < 4294967296 -> 0 <= i < box_size dims ->
  idx2coord (mk_shape dims) i = Ok cs -> idx2coord_m dims i = Ok (map (fun c => c + 1) cs).
Proof.
  intros dims i cs H2 Hp Hlt Hi H. assert (Hb := coords_of_in_box dims i Hp Hi). assert (En := cell_number_coords_of dims i Hp Hi).
  rewrite <- En in H. rewrite idx2coord_eq in H by auto. injection H as <-. unfold idx2coord_m. rewrite running_pps.
  assert (Hne : dims <> []) by (destruct dims; cbn in H2; [lia|discriminate]).
  pose proof (idx2coord_m_loop_eq dims (coords_of dims i) Hne Hb) as HL. rewrite En in HL.
  assert (Hlen : List.length (rev (pps 1 dims)) = List.length dims) by (rewrite rev_length; apply length_pps).
  destruct (rev (pps 1 dims)) as [|x [|y r]]; cbn [List.length] in Hlen; try lia. cbn [tl] in *. rewrite HL, rev_involutive. reflexivity.
Qed.

(** IOFacts.v - lemmas about the IO model. *)
From Coq Require Import Ascii String DecimalN.
From Verif Require Import Base BaseFacts Num Grid GridFacts GridMore GridUpd Spec Obs NumLaws TextModel TextFacts IOModel.
Open Scope Z_scope.
Open Scope list_scope.

(** ** unsigned integers *)
Lemma uint_text : forall u, uint_of_text (text_of_uint u) = Some u.
Proof. induction u; cbn [text_of_uint uint_of_text]; try rewrite IHu; reflexivity. Qed.

Lemma showU_nonempty : forall n, showU n <> [].
Proof.
  intros n E. assert (H : N.to_uint (Z.to_N n) = Decimal.Nil).
  { unfold showU in E. destruct (N.to_uint (Z.to_N n)); [reflexivity|discriminate..]. }
  destruct (Z.to_N n) as [|p] eqn:Ep; [discriminate H|]. pose proof (DecimalN.Unsigned.of_to (N.pos p)) as K. rewrite H in K. discriminate.
Qed.

Lemma readU_showU : forall n limit, 0 <= n < limit -> readU limit (showU n) = Some n.
Proof.
  intros n limit Hn. unfold readU. pose proof (showU_nonempty n) as Hne. destruct (showU n) as [|c t] eqn:E; [contradiction|]. rewrite <- E. unfold showU.
  rewrite uint_text, DecimalN.Unsigned.of_to, Z2N.id by lia. destruct (Z.ltb_spec n limit); [reflexivity|lia].
Qed.

Definition is_token (t : text) : Prop := t <> [] /\ Forall (fun c => is_space c = false) t.

Lemma showU_token : forall n, is_token (showU n).
Proof.
  intros n. split; [apply showU_nonempty|]. unfold showU. generalize (N.to_uint (Z.to_N n)) as u. induction u; cbn [text_of_uint]; constructor; auto.
Qed.

(** ** tokens *)
Definition starts_space (t : text) : Prop := match t with [] => True | c :: _ => is_space c = true end.

Lemma take_token_app : forall t rest, Forall (fun c => is_space c = false) t -> starts_space rest -> take_token (t ++ rest) = (t, rest).
Proof.
  induction t as [|c t IH]; intros rest Ht Hr; cbn [app take_token].
  - destruct rest as [|c r]; [reflexivity|]. cbn [take_token]. cbn in Hr. rewrite Hr. reflexivity.
  - inversion Ht as [|? ? Hc Ht']; subst. rewrite Hc. rewrite IH by auto. reflexivity.
Qed.

Lemma skip_space_token : forall sp t rest, Forall (fun c => is_space c = true) sp -> is_token t -> skip_space (sp ++ t ++ rest) = t ++ rest.
Proof.
  induction sp as [|c sp IH]; intros t rest Hs [Hne Ht]; cbn [app].
  - destruct t as [|c t]; [contradiction|]. inversion Ht as [|? ? Hc ?]; subst. cbn [app skip_space]. rewrite Hc. reflexivity.
  - inversion Hs as [|? ? Hc Hs']; subst. cbn [skip_space]. rewrite Hc. apply IH; auto. split; auto.
Qed.

Lemma extract_token : forall {T} (read : text -> option T) zero sp t rest v,
  Forall (fun c => is_space c = true) sp -> is_token t -> starts_space rest ->
  extract read zero (mkIn (sp ++ t ++ rest) true) v =
  match read t with Some x => (mkIn rest (match rest with [] => false | _ => true end), Some x) | None => (mkIn rest false, Some zero) end.
Proof.
  intros T read zero sp t rest v Hs Ht Hr. unfold extract. cbn [in_good in_rest]. rewrite skip_space_token by auto.
  destruct Ht as [Hne Ht]. destruct (t ++ rest) as [|c r] eqn:E; [destruct t; [contradiction|discriminate]|]. rewrite <- E.
  rewrite take_token_app by auto. reflexivity.
Qed.
Lemma extract_bad : forall {T} (read : text -> option T) zero r v, extract read zero (mkIn r false) v = (mkIn r false, v).
Proof. reflexivity. Qed.

Section F.
Context {N : Num}.

(** ** loading a list of cells *)
Lemma load_list : forall (l : list (Z * N)) (g : grid N) obs,
  NoDup (map fst l) -> (forall i v, In (i, v) l -> exists c, getCell g i = Ok c) ->
  exists g', foldM load_cell l (g, obs) = Ok (g', obs ++ map fst (filter (fun iv => nltb (snd iv) comp_margin) l)) /\
    g_sh g' = g_sh g /\ g_leaf g' = g_leaf g /\ g_clean g' = g_clean g /\ g_obs g' = g_obs g /\ List.length (g_cells g') = List.length (g_cells g) /\
    (forall i v c, In (i, v) l -> getCell g i = Ok c -> getCell g' i = Ok (with_occ c v)) /\
    (forall i, ~ In i (map fst l) -> getCell g' i = getCell g i).
Proof.
  induction l as [|[i v] l IH]; intros g obs Hnd Hin.
  - exists g. cbn. rewrite app_nil_r. repeat (split; [reflexivity|]). split; [intros i v c []|auto].
  - inversion Hnd as [|? ? Hni Hnd']; subst. destruct (Hin i v (or_introl eq_refl)) as [c Hc].
    destruct (updCell_in g i c (fun c => with_occ c v) Hc) as [g1 H1].
    pose proof (fun j => updCell_get _ _ _ _ j H1) as Hget. pose proof (updCell_fields _ _ _ _ H1) as Hfi.
    assert (Hg1i : getCell g1 i = Ok (with_occ c v)) by (rewrite Hget; rewrite Z.eqb_refl, Hc; reflexivity).
    assert (Hg1 : forall j, j <> i -> getCell g1 j = getCell g j).
    { intros j Hj. rewrite Hget. destruct (Z.eqb_spec i j); [congruence|reflexivity]. }
    assert (Hin' : forall j w, In (j, w) l -> exists c, getCell g1 j = Ok c).
    { intros j w Hj. assert (j <> i) by (intros ->; apply Hni; apply (in_map fst) in Hj; exact Hj). rewrite Hg1 by auto. apply (Hin j w). right. auto. }
    destruct (IH g1 (if isOccupied (with_occ c v) then obs ++ [i] else obs) Hnd' Hin') as [g' [E [F1 [F2 [F3 [F4 [F5 [F6 F7]]]]]]]].
    exists g'. split.
    + cbn [foldM load_cell]. unfold setVelocity. rewrite H1. cbn [bind]. rewrite Hg1i. cbn [bind]. rewrite E. f_equal. f_equal.
      cbn [filter snd]. unfold isOccupied. cbn [with_occ c_occ]. destruct (nltb v comp_margin); [rewrite <- app_assoc; reflexivity|reflexivity].
    + destruct Hfi as [E1 [E2 [E3 [E4 E5]]]]. split; [congruence|]. split; [congruence|]. split; [congruence|]. split; [congruence|]. split; [congruence|]. split.
      * intros j w c' [Hj|Hj] Hc'.
        -- injection Hj as <- <-. rewrite Hc' in Hc. injection Hc as ->. rewrite F7 by auto. exact Hg1i.
        -- assert (j <> i) by (intros ->; apply Hni; apply (in_map fst) in Hj; exact Hj). apply F6; auto. rewrite Hg1; auto.
      * intros j Hj. cbn in Hj. rewrite F7 by tauto. apply Hg1. intros ->. tauto.
Qed.

(** ** a run over readable tokens *)
Fixpoint indexed (i : Z) (l : list N) : list (Z * N) := match l with [] => [] | v :: r => (i, v) :: indexed (i + 1) r end.

Lemma indexed_fst : forall l i, map fst (indexed i l) = map (fun k => i + k) (zseq (List.length l)).
Proof.
  intros l i. unfold zseq. rewrite map_map. rewrite <- (map_map Z.of_nat (fun k => i + k)). rewrite map_map.
  revert i. induction l as [|v l IH]; intros i; [reflexivity|]. cbn [indexed map fst List.length seq]. f_equal; [lia|].
  rewrite IH, <- seq_shift, map_map. apply map_ext. intros a. lia.
Qed.
Lemma indexed_in : forall l i j v, In (j, v) (indexed i l) <-> i <= j /\ nth_error l (Z.to_nat (j - i)) = Some v.
Proof.
  induction l as [|w l IH]; intros i j v; cbn [indexed].
  - split; [intros []|]. intros [_ H]. destruct (Z.to_nat (j - i)); discriminate.
  - cbn [In]. rewrite IH. split.
    + intros [H|[H1 H2]].
      * injection H as <- <-. rewrite Z.sub_diag. cbn. split; [lia|auto].
      * split; [lia|]. replace (Z.to_nat (j - i)) with (S (Z.to_nat (j - (i + 1)))) by lia. exact H2.
    + intros [H1 H2]. destruct (Z.eq_dec i j) as [->|Hij].
      * rewrite Z.sub_diag in H2. cbn in H2. injection H2 as <-. auto.
      * right. split; [lia|]. replace (Z.to_nat (j - i)) with (S (Z.to_nat (j - (i + 1)))) in H2 by lia. exact H2.
Qed.
Lemma indexed_app : forall a b i, indexed i (a ++ b) = indexed i a ++ indexed (i + Z.of_nat (List.length a)) b.
Proof.
  induction a as [|v a IH]; intros b i; cbn [indexed app List.length]; [f_equal; lia|]. rewrite IH. do 3 f_equal. lia.
Qed.

Context (readD : text -> option N).


(** the cells take the values of [vals]; when tokens run out, the last value is used *)
Lemma load_rep : forall n i r (v : N) go, load_cells readD n i (mkIn r false) (Some v) go = foldM load_cell (indexed i (repeat v n)) go.
Proof.
  induction n as [|n IH]; intros i r v go; cbn [load_cells repeat indexed foldM]; [reflexivity|].
  rewrite extract_bad. cbn [use bind]. destruct (load_cell go (i, v)) as [go'|]; cbn [bind]; [apply IH|reflexivity].
Qed.
Lemma load_emp : forall n i sp r occ go, skip_space r = [] -> load_cells readD n i (mkIn r sp) occ go =
     match n with O => Ok go | S k => v <- use occ ;; foldM load_cell (indexed i (repeat v (S k))) go end.
Proof.
  intros [|n] i sp r occ go Hs; [reflexivity|]. cbn [load_cells]. unfold extract. cbn [in_good in_rest]. rewrite Hs.
  destruct sp; (destruct occ as [v|]; cbn [use bind]; [|reflexivity]); cbn [repeat indexed foldM]; (destruct (load_cell go (i, v)) as [go'|]; cbn [bind]; [apply load_rep|reflexivity]).
Qed.
Lemma skip_all : forall sp, Forall (fun c => is_space c = true) sp -> skip_space sp = [].
Proof. induction sp as [|c sp IH]; intros H; [reflexivity|]. inversion H as [|? ? Hc H']; subst. cbn [skip_space]. rewrite Hc. auto. Qed.

Lemma load_cells_tokens : forall (toks : list text) vals n i pre good occ go,
  Forall (fun c => is_space c = true) pre -> Forall is_token toks -> Forall2 (fun t v => readD t = Some v) toks vals ->
  (List.length toks <= n)%nat -> good = true \/ toks = [] ->
  load_cells readD n i (mkIn (pre ++ List.concat (map (fun t => newline :: t) toks)) good) occ go =
  go' <- foldM load_cell (indexed i vals) go ;;
  match n - List.length toks with
  | O => Ok go'
  | S k => v <- use (match vals with [] => occ | _ => Some (last vals n0) end) ;;
           foldM load_cell (indexed (i + Z.of_nat (List.length toks)) (repeat v (S k))) go'
  end%nat.
Proof.
  induction toks as [|t toks IH]; intros vals n i pre good occ go Hp Ht Hv Hn Hsp.
  - inversion Hv; subst. cbn [List.length indexed foldM bind map List.concat]. rewrite Nat.sub_0_r, app_nil_r. rewrite load_emp by (apply skip_all; auto).
    destruct n; [reflexivity|]. replace (i + Z.of_nat 0) with i by lia. reflexivity.
  - inversion Ht as [|? ? Ht1 Ht2]; subst. inversion Hv as [|? v ? vals' Hv1 Hv2]; subst. destruct n as [|n]; [cbn in Hn; lia|].
    destruct Hsp as [->|Hsp]; [|discriminate]. cbn [map List.concat].
    cbn [load_cells]. replace (pre ++ (newline :: t) ++ List.concat (map (fun t => newline :: t) toks)) with ((pre ++ [newline]) ++ t ++ List.concat (map (fun t => newline :: t) toks)) by (rewrite <- app_assoc; reflexivity).
    rewrite extract_token; [|apply Forall_app; split; [auto|repeat constructor]|auto|destruct toks; cbn; auto]. rewrite Hv1. cbn [use bind indexed foldM].
    destruct (load_cell go (i, v)) as [go1|]; cbn [bind]; [|reflexivity].
    rewrite (IH vals' n (i + 1) []); auto; [|cbn in Hn; lia|].
    + cbn [List.length Nat.sub]. destruct (foldM load_cell (indexed (i + 1) vals') go1) as [go2|]; cbn [bind]; [|reflexivity].
      destruct (n - List.length toks)%nat as [|k]; [reflexivity|]. replace (i + Z.of_nat (S (List.length toks))) with (i + 1 + Z.of_nat (List.length toks)) by lia.
      destruct vals' as [|v' vals']; [reflexivity|]. reflexivity.
    + destruct toks; [right; reflexivity|left; reflexivity].
Qed.

(** a token that cannot be read: zero from there on *)
Lemma load_cells_bad : forall (toks : list text) vals bad tl n i pre occ go,
  Forall (fun c => is_space c = true) pre -> Forall is_token toks -> Forall2 (fun t v => readD t = Some v) toks vals ->
  is_token bad -> readD bad = None -> starts_space tl -> (List.length toks < n)%nat ->
  load_cells readD n i (mkIn (pre ++ List.concat (map (fun t => newline :: t) toks) ++ newline :: bad ++ tl) true) occ go =
  foldM load_cell (indexed i (vals ++ repeat n0 (n - List.length toks))) go.
Proof.
  induction toks as [|t toks IH]; intros vals bad tl n i pre occ go Hp Ht Hv Hb1 Hb2 Htl Hn.
  - inversion Hv; subst. cbn [List.length map List.concat app]. rewrite Nat.sub_0_r. destruct n as [|n]; [cbn in Hn; lia|]. cbn [load_cells].
    replace (pre ++ newline :: bad ++ tl) with ((pre ++ [newline]) ++ bad ++ tl) by (rewrite <- app_assoc; reflexivity).
    rewrite extract_token; [|apply Forall_app; split; [auto|repeat constructor]|auto|auto]. rewrite Hb2. cbn [use bind repeat indexed foldM].
    destruct (load_cell go (i, n0)) as [go1|]; cbn [bind]; [apply load_rep|reflexivity].
  - inversion Ht as [|? ? Ht1 Ht2]; subst. inversion Hv as [|? v ? vals' Hv1 Hv2]; subst. destruct n as [|n]; [cbn in Hn; lia|].
    cbn [map List.concat load_cells].
    replace (pre ++ ((newline :: t) ++ List.concat (map (fun t => newline :: t) toks)) ++ newline :: bad ++ tl)
      with ((pre ++ [newline]) ++ t ++ (List.concat (map (fun t => newline :: t) toks) ++ newline :: bad ++ tl)) by (repeat (rewrite <- app_assoc; cbn [app]); reflexivity).
    rewrite extract_token; [|apply Forall_app; split; [auto|repeat constructor]|auto|destruct toks; cbn; auto]. rewrite Hv1. cbn [use bind indexed foldM app].
    destruct (load_cell go (i, v)) as [go1|]; cbn [bind]; [|reflexivity].
    replace (match List.concat (map (fun t0 => newline :: t0) toks) ++ newline :: bad ++ tl with [] => false | _ :: _ => true end) with true by (destruct toks; reflexivity).
    cbn [List.length Nat.sub] in *. apply (IH vals' bad tl n (i + 1) []); auto. lia.
Qed.

(** ** the header *)
Definition dim_lines (dims : list Z) : text := flat_map (fun d => newline :: showU d ++ [tab]) dims.

Lemma read_dims_lines : forall dims pre rest, Forall (fun c => is_space c = true) pre -> Forall (fun d => 0 <= d < 4294967296) dims ->
  read_dims (List.length dims) (mkIn (pre ++ dim_lines dims ++ rest) true) =
  (mkIn (match dims with [] => pre | _ => [tab] end ++ rest) true, map Some dims).
Proof.
  induction dims as [|d dims IH]; intros pre rest Hp Hd; [reflexivity|].
  inversion Hd as [|? ? Hd1 Hd2]; subst. cbn [List.length read_dims dim_lines flat_map].
  replace (pre ++ ((newline :: showU d ++ [tab]) ++ flat_map (fun d => newline :: showU d ++ [tab]) dims) ++ rest)
    with ((pre ++ [newline]) ++ showU d ++ (tab :: dim_lines dims ++ rest)) by (unfold dim_lines; repeat (rewrite <- app_assoc; cbn [app]); reflexivity).
  rewrite extract_token; [|apply Forall_app; split; [auto|repeat constructor]|apply showU_token|reflexivity].
  rewrite readU_showU by auto. cbv iota beta.
  change (tab :: dim_lines dims ++ rest) with ([tab] ++ dim_lines dims ++ rest). rewrite IH; [|repeat constructor|auto].
  cbv iota beta. cbn [map]. f_equal. destruct dims; reflexivity.
Qed.
End F.

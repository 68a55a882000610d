(** Prop_Text.v - C46, C47, C48, C59: configuration strings and command lines. *)
From Coq Require Import Ascii String.
From Verif Require Import Base BaseFacts TextModel TextSpec TextFacts.
Open Scope Z_scope.
Open Scope list_scope.

(** * C48 Command line *)
Theorem C48_findArguments : forall argv flag,
  (forall i, first_at argv flag i -> findArguments argv flag = i) /\
  (nowhere argv flag -> findArguments argv flag = -1).
Proof. intros argv flag. split; [intros i; apply first_at_find|apply nowhere_find]. Qed.

(** scalar parsers: never out of range; the value is the argument behind the flag *)
Theorem C48_scalar : forall {A} (conv : text -> A) argv flag val,
  (forall i a, first_at argv flag i -> nth_error argv (Z.to_nat (i + 1)) = Some a ->
     parseScalar conv argv flag val = Ok (i + 1, conv a)) /\
  (forall i, first_at argv flag i -> nth_error argv (Z.to_nat (i + 1)) = None ->
     parseScalar conv argv flag val = Ok (i + 1, val)) /\
  (nowhere argv flag -> parseScalar conv argv flag val = Ok (0, val)).
Proof.
  intros A conv argv flag val. unfold parseScalar, argAt. split; [|split].
  - intros i a Hf Hn. rewrite (first_at_find _ _ _ Hf). pose proof (first_at_range _ _ _ Hf) as Hr.
    assert (Z.to_nat (i + 1) < List.length argv)%nat by (apply nth_error_Some; congruence).
    destruct (Z.ltb_spec 0 (i + 1)); [|lia]. destruct (Z.ltb_spec (i + 1) (Z.of_nat (List.length argv))); [|lia]. cbn [andb].
    apply vget_nth in Hn. rewrite Z2Nat.id in Hn by lia. rewrite Hn. reflexivity.
  - intros i Hf Hn. rewrite (first_at_find _ _ _ Hf). pose proof (first_at_range _ _ _ Hf) as Hr. apply nth_error_None in Hn.
    destruct (Z.ltb_spec 0 (i + 1)); [|lia]. destruct (Z.ltb_spec (i + 1) (Z.of_nat (List.length argv))); [lia|]. reflexivity.
  - intros Hn. rewrite (nowhere_find _ _ Hn). reflexivity.
Qed.

(** the three cases of C48_scalar are all there are *)
Theorem C48_scalar_total : forall {A} (conv : text -> A) argv flag val, exists i v, parseScalar conv argv flag val = Ok (i, v).
Proof.
  intros A conv argv flag val. destruct (C48_scalar conv argv flag val) as [H1 [H2 H3]].
  destruct (findArguments_spec argv flag) as [[_ Hn]|[i [_ Hi]]].
  - eexists _, _. apply H3, Hn.
  - destruct (nth_error argv (Z.to_nat (i + 1))) eqn:E; eexists _, _; [eapply H1; eauto|eapply H2; eauto].
Qed.

(** vector parsers: the arguments behind the flag up to the next one starting with '-' ;
    undefined when nothing follows the flag *)
Theorem C48_vector_found : forall {A} (conv : text -> A) argv flag vals i,
  first_at argv flag i ->
  (skipn (Z.to_nat (i + 1)) argv = [] -> parseVector conv argv flag vals = Fail UB) /\
  (skipn (Z.to_nat (i + 1)) argv <> [] ->
     exists l, until_dash l (skipn (Z.to_nat (i + 1)) argv) /\ parseVector conv argv flag vals = Ok (i, vals ++ map conv l)).
Proof.
  intros A conv argv flag vals i Hf. pose proof (first_at_range _ _ _ Hf) as Hr. unfold parseVector. rewrite (first_at_find _ _ _ Hf). split.
  - intros Hs. cbn [vec_loop]. unfold argAt. pose proof (f_equal (@List.length _) Hs) as K. rewrite skipn_length in K. cbn in K.
    replace (i + 1) with (Z.of_nat (Z.to_nat (i + 1))) by lia. rewrite vget_end; [reflexivity|]. apply nth_error_None. lia.
  - intros Hs. destruct (skipn (Z.to_nat (i + 1)) argv) as [|t r] eqn:E; [contradiction|].
    pose proof (f_equal (@List.length _) E) as K. rewrite skipn_length in K.
    destruct (vec_loop_spec conv argv _ (S (List.length argv)) vals t r E) as [l [Hl He]]; [rewrite <- K; lia|].
    exists l. split; auto. rewrite Z2Nat.id in He by lia. rewrite He. reflexivity.
Qed.

(** with the flag missing the program name and what follows it are taken as values *)
Theorem C48_vector_missing : forall {A} (conv : text -> A) argv flag vals,
  nowhere argv flag ->
  (argv = [] -> parseVector conv argv flag vals = Fail UB) /\
  (argv <> [] -> exists l, until_dash l argv /\ parseVector conv argv flag vals = Ok (-1, vals ++ map conv l)).
Proof.
  intros A conv argv flag vals Hn. unfold parseVector. rewrite (nowhere_find _ _ Hn). split.
  - intros ->. reflexivity.
  - intros H. destruct argv as [|t r] eqn:E; [contradiction|].
    destruct (vec_loop_spec conv (t :: r) 0 (S (List.length (t :: r))) vals t r eq_refl) as [l [Hl He]]; [lia|].
    exists l. split; auto. change (-1 + 1) with (Z.of_nat 0). rewrite He. reflexivity.
Qed.
(** so the program name itself is a value whenever it does not start with '-' *)
Corollary C48_vector_missing_program_name : forall {A} (conv : text -> A) prog rest flag,
  nowhere (prog :: rest) flag -> ~ dashed prog ->
  exists l, parseVector conv (prog :: rest) flag [] = Ok (-1, conv prog :: l).
Proof.
  intros A conv prog rest flag Hn Hd. destruct (proj2 (C48_vector_missing conv (prog :: rest) flag [] Hn) ltac:(discriminate)) as [l [[Hl1 [r [Hl2 Hl3]]] He]].
  rewrite He. destruct l as [|a l].
  - cbn in Hl2. destruct Hl3 as [->|[t [r' [-> Hd']]]]; [discriminate|]. injection Hl2 as <- <-. contradiction.
  - injection Hl2 as <- _. exists (map conv l). reflexivity.
Qed.

Example C48_case :
  let argv := map str ["prog"; "-m"; "a"; "-v"; "1"; "2"; "-q"]%string in
  first_at argv (str "-v") 3 /\ nowhere argv (str "-x") /\ first_at argv (str "-q") 6 /\
  parseVector (fun t => t) argv (str "-v") [] = Ok (3, map str ["1"; "2"]%string) /\
  parseVector (fun t => t) argv (str "-q") [] = Fail UB /\
  parseVector (fun t => t) argv (str "-x") [] = Ok (-1, map str ["prog"]%string).
Proof.
  cbv zeta. assert (K : forall j, 1 <= j -> j = 1 \/ j = 2 \/ j = 3 \/ j = 4 \/ j = 5 \/ j = 6 \/ 7 <= j) by lia.
  repeat split; try reflexivity; try lia.
  - intros j Hj. assert (H : j = 1 \/ j = 2) by lia. destruct H as [-> | ->]; discriminate.
  - intros j Hj. destruct (K j Hj) as [->|[->|[->|[->|[->|[->|H]]]]]]; try discriminate.
    replace (nth_error _ _) with (@None text); [discriminate|]. symmetry. apply nth_error_None. cbn. lia.
  - intros j Hj. destruct (K j ltac:(lia)) as [->|[->|[->|[->|[->|[->|H]]]]]]; try discriminate; lia.
Qed.

(** * C46 BenchmarkCFG::split *)

(** For every non-empty string with fields [fs] (k of them):
    k <= 3: the result is a prefix of the fields, cut as soon as the number of characters
            left plus k is at most 3;
    k >= 4: all fields followed by copies of the last one, as many as it takes to make up
            k - 3 characters - or no end at all if the last field is empty. *)
Theorem C46_split_characterised : forall s fs,
  fields s fs -> s <> [] -> len s < 2 ^ 62 ->
  let k := Z.of_nat (List.length fs) in
  (forall fuel, (2 * List.length s + 2 <= fuel)%nat ->
    (k <= 3 -> exists j, split fuel s = Ok (firstn j fs) /\ total (skipn j fs) + k <= 3 /\
                 forall i, (i < j)%nat -> 3 < total (skipn i fs) + k) /\
    (3 < k -> last fs [] <> [] ->
       exists m, split fuel s = Ok (fs ++ repeat (last fs []) m) /\
                 k - 3 <= Z.of_nat m * len (last fs []) < k - 3 + len (last fs []))) /\
  (3 < k -> last fs [] = [] -> forall fuel, split fuel s = Fail OutOfFuel).
Proof.
  intros s fs [Hne [Hnc Hs]] Hse Hlen k.
  assert (Hls : len s = total fs + k - 1) by (subst s; apply join_len; auto).
  assert (Hs1 : 1 <= len s) by (unfold len; destruct s; [contradiction|cbn [List.length]; lia]).
  pose proof (total_nonneg fs) as Ht.
  assert (Hk : 1 <= k) by (unfold k; destruct fs; [contradiction|cbn [List.length]; lia]).
  assert (Hsz : u64 (len s - 1) = total fs + k - 2) by (rewrite u64_id; lia).
  assert (Hsrc : mkSs s false = src fs) by (subst s; destruct fs; [contradiction|reflexivity]).
  assert (Hsp : forall j, total fs = total (firstn j fs) + total (skipn j fs)) by (intros j; rewrite <- total_app, firstn_skipn; reflexivity).
  assert (Hlast : len (last fs []) <= total fs).
  { clear - Hne. induction fs as [|a [|b r] IH]; [contradiction|cbn [last total]; unfold len; lia|].
    change (last (a :: b :: r) []) with (last (b :: r) []). change (total (a :: b :: r)) with (Z.of_nat (List.length a) + total (b :: r)).
    specialize (IH ltac:(discriminate)). lia. }
  assert (Hmain : forall fuel, (2 * List.length s + 2 <= fuel)%nat ->
    (k <= 3 /\ exists j, split fuel s = Ok (firstn j fs) /\ total (skipn j fs) + k <= 3 /\ forall i, (i < j)%nat -> 3 < total (skipn i fs) + k) \/
    (3 < k /\ split fuel s = split_loop (fuel - List.length fs) (total fs + k - 2) (1 + total fs) (src []) (last fs []) fs)).
  { intros fuel Hf. unfold split. rewrite Hsz, Hsrc.
    destruct (split_loop_fields fs fuel (total fs + k - 2) 1 [] [] Hnc ltac:(lia) ltac:(lia)) as [[j [Hj [E [H1 H2]]]]|[H1 E]].
    - unfold len, k in *. lia.
    - left. specialize (Hsp j). split; [pose proof (total_nonneg (skipn j fs)); lia|].
      exists j. split; [exact E|]. split; [lia|]. intros i Hi. specialize (H2 i Hi). pose proof (firstn_skipn i fs) as Hfi. apply (f_equal total) in Hfi. rewrite total_app in Hfi. lia.
    - right. split; [lia|exact E]. }
  split.
  - intros fuel Hf. split.
    + intros Hk3. destruct (Hmain fuel Hf) as [[_ H]|[H _]]; [exact H|lia].
    + intros Hk3 Hl. destruct (Hmain fuel Hf) as [[H _]|[_ E]]; [lia|].
      destruct (split_loop_done (fuel - List.length fs) (total fs + k - 2) (1 + total fs) (last fs []) fs Hl ltac:(lia) ltac:(lia) ltac:(lia)) as [m [Em Hm]].
      * unfold len, k in *. lia.
      * exists m. split; [etransitivity; [exact E|exact Em]|lia].
  - intros Hk3 Hl fuel.
    assert (Mono : forall f n size pos st item el r, split_loop f size pos st item el = Ok r -> split_loop (f + n) size pos st item el = Ok r).
    { clear. induction f as [|f IH]; intros n size pos st item el r; cbn [split_loop Nat.add].
      - destruct (pos <? size) eqn:E; [discriminate|]. intros H. destruct n; cbn [split_loop]; rewrite E; exact H.
      - destruct (pos <? size); auto. destruct (getline comma st item) as [st' item']. apply IH. }
    assert (NoUB : forall f size pos st item el, split_loop f size pos st item el = Fail OutOfFuel \/ exists r, split_loop f size pos st item el = Ok r).
    { clear. induction f as [|f IH]; intros size pos st item el; cbn [split_loop]; destruct (pos <? size); eauto.
      destruct (getline comma st item) as [st' item']. apply IH. }
    unfold split. destruct (NoUB fuel (u64 (len s - 1)) 1 (mkSs s false) [] []) as [H|[r H]]; [exact H|exfalso].
    apply (Mono _ (2 * List.length s + 2)%nat) in H. destruct (Hmain (fuel + (2 * List.length s + 2))%nat ltac:(lia)) as [[H' _]|[_ E]]; [lia|].
    unfold split in E. rewrite E, Hl in H. rewrite split_loop_done_empty in H by lia. discriminate.
Qed.

(** the empty string makes it loop for ever (2^64 - 1 characters are expected) *)
Theorem C46_empty_string : forall fuel, split fuel [] = Fail OutOfFuel.
Proof.
  intros [|fuel]; [reflexivity|]. unfold split. cbn [split_loop]. change (1 <? u64 (len [] - 1)) with true. cbv iota.
  change (getline comma (mkSs [] false) []) with (src [], @nil ascii). cbv iota beta. apply split_loop_done_empty; vm_compute; split; congruence.
Qed.

Lemma firstn_by_total : forall fs j, (forall i, (i < j)%nat -> 3 < total (skipn i fs) + Z.of_nat (List.length fs)) ->
  total (skipn j fs) + Z.of_nat (List.length fs) <= 3 ->
  forall j', (forall i, (i < j')%nat -> 3 < total (skipn i fs) + Z.of_nat (List.length fs)) ->
  total (skipn j' fs) + Z.of_nat (List.length fs) <= 3 -> j = j'.
Proof.
  intros fs j H1 H2 j' H3 H4. destruct (Nat.lt_total j j') as [L|[L|L]]; auto; [specialize (H3 _ L)|specialize (H1 _ L)]; lia.
Qed.

(** The three everyday cases. One field: lost if it has fewer than 3 characters.
    Two fields: the second is lost if it has at most one character.
    Three fields: right, unless the last is empty. *)
Theorem C46_one_field : forall a fuel, ~ In comma a -> a <> [] -> len a < 2 ^ 62 -> (2 * List.length a + 2 <= fuel)%nat ->
  split fuel a = Ok (if len a <=? 2 then [] else [a]).
Proof.
  intros a fuel Hn Ha Hl Hf.
  destruct (C46_split_characterised a [a]) as [H _]; [split; [discriminate|split; [repeat constructor; auto|reflexivity]]|auto|auto|].
  destruct (proj1 (H fuel Hf) ltac:(cbn; lia)) as [j [E [H1 H2]]]. rewrite E. unfold len.
  destruct (Z.leb_spec (Z.of_nat (List.length a)) 2) as [L|L].
  - rewrite (firstn_by_total [a] j H2 H1 0%nat); [reflexivity|intros i Hi; lia|cbn; lia].
  - rewrite (firstn_by_total [a] j H2 H1 1%nat); [reflexivity| |cbn; lia]. intros i Hi. assert (i = 0)%nat by lia. subst. cbn. lia.
Qed.
Theorem C46_two_fields : forall a b fuel, ~ In comma a -> ~ In comma b -> len (a ++ comma :: b) < 2 ^ 62 ->
  (2 * List.length (a ++ comma :: b) + 2 <= fuel)%nat ->
  split fuel (a ++ comma :: b) = Ok (if len b <=? 1 then if len a + len b <=? 1 then [] else [a] else [a; b]).
Proof.
  intros a b fuel Hna Hnb Hl Hf.
  destruct (C46_split_characterised (a ++ comma :: b) [a; b]) as [H _]; [split; [discriminate|split; [repeat constructor; auto|reflexivity]]| |auto|].
  { destruct a; discriminate. }
  destruct (proj1 (H fuel Hf) ltac:(cbn; lia)) as [j [E [H1 H2]]]. rewrite E. unfold len.
  destruct (Z.leb_spec (Z.of_nat (List.length b)) 1) as [L|L]; [destruct (Z.leb_spec (Z.of_nat (List.length a) + Z.of_nat (List.length b)) 1) as [L'|L']|].
  - rewrite (firstn_by_total [a; b] j H2 H1 0%nat); [reflexivity|intros i Hi; lia|cbn; lia].
  - rewrite (firstn_by_total [a; b] j H2 H1 1%nat); [reflexivity| |cbn; lia]. intros i Hi. assert (i = 0)%nat by lia. subst. cbn. lia.
  - rewrite (firstn_by_total [a; b] j H2 H1 2%nat); [reflexivity| |cbn; lia]. intros i Hi. assert (Hi' : (i = 0 \/ i = 1)%nat) by lia. destruct Hi'; subst; cbn; lia.
Qed.
Theorem C46_three_fields : forall a b c fuel, ~ In comma a -> ~ In comma b -> ~ In comma c -> c <> [] -> len (join [a; b; c]) < 2 ^ 62 ->
  (2 * List.length (join [a; b; c]) + 2 <= fuel)%nat -> split fuel (join [a; b; c]) = Ok [a; b; c].
Proof.
  intros a b c fuel Hna Hnb Hnc Hc Hl Hf.
  destruct (C46_split_characterised (join [a; b; c]) [a; b; c]) as [H _]; [split; [discriminate|split; [repeat constructor; auto|reflexivity]]| |auto|].
  { destruct a; discriminate. }
  destruct (proj1 (H fuel Hf) ltac:(cbn; lia)) as [j [E [H1 H2]]]. rewrite E.
  assert (Hcl : 1 <= Z.of_nat (List.length c)) by (destruct c; [contradiction|cbn [List.length]; lia]).
  rewrite (firstn_by_total [a; b; c] j H2 H1 3%nat); [reflexivity| |cbn; lia].
  intros i Hi. assert (Hi' : (i = 0 \/ i = 1 \/ i = 2)%nat) by lia. destruct Hi' as [->|[->| ->]]; cbn; lia.
Qed.

Example C46_case :
  fields (str "FSM,5") [str "FSM"; str "5"] /\ split 100 (str "FSM,5") = Ok [str "FSM"] /\
  split 100 (str "F2") = Ok [] /\ split 100 (str "a,b,c,d,e") = Ok [str "a"; str "b"; str "c"; str "d"; str "e"; str "e"; str "e"] /\
  fields (str "a,b,c,") [str "a"; str "b"; str "c"; []].
Proof.
  assert (NC : forall t, forallb (fun c => negb (Ascii.eqb c comma)) t = true -> ~ In comma t).
  { intros t H K. rewrite forallb_forall in H. specialize (H _ K). rewrite Ascii.eqb_refl in H. discriminate. }
  split; [|split; [reflexivity|split; [reflexivity|split; [reflexivity|]]]]; (split; [discriminate|]);
    (split; [repeat constructor; apply NC; reflexivity|reflexivity]).
Qed.

(** * C59 splitAndCast: missing values are filled with the last one *)
Lemma firstn_more : forall {A} (l : list A) z n, firstn n (l ++ repeat z (S n)) = firstn n (l ++ repeat z n).
Proof.
  intros A l z n. rewrite !firstn_app. f_equal. replace (S n) with (n + 1)%nat by lia. rewrite repeat_app, firstn_app, repeat_length.
  replace (n - List.length l - n)%nat with O by lia. apply app_nil_r.
Qed.
Theorem C59_splitAndCast : forall {T} (cast : text -> option T) n s fs,
  fields s fs -> s <> [] ->
  let used := firstn n (fs ++ repeat (last fs []) n) in
  (forall vs, Forall2 (fun f v => cast f = Some v) used vs -> splitAndCast cast n s = Ok vs) /\
  ((exists f, In f used /\ cast f = None) -> splitAndCast cast n s = Fail abort).
Proof.
  intros T cast n s fs [Hne [Hnc Hs]] Hse used.
  assert (Hsrc : mkSs s false = src fs) by (subst s; destruct fs; [contradiction|reflexivity]).
  assert (M : forall n rem item, Forall (fun f => ~ In comma f) rem ->
     let used := firstn n (rem ++ repeat (last rem item) n) in
     (forall vs, Forall2 (fun f v => cast f = Some v) used vs -> splitAndCast_loop cast n (src rem) item = Ok vs) /\
     ((exists f, In f used /\ cast f = None) -> splitAndCast_loop cast n (src rem) item = Fail abort)).
  { clear. induction n as [|n IH]; intros rem item Hnc used.
    - subst used. cbn [firstn splitAndCast_loop]. split; [intros vs H; inversion H; reflexivity|intros [f [[] _]]].
    - assert (Hstep : exists a rem', getline comma (src rem) item = (src rem', a) /\ Forall (fun f => ~ In comma f) rem' /\
         used = a :: firstn n (rem' ++ repeat (last rem' a) n)).
      { destruct rem as [|a rem].
        - exists item, []. split; [apply getline_done|]. split; [constructor|]. subst used. cbn [app last repeat firstn]. reflexivity.
        - inversion Hnc; subst. exists a, rem. split; [apply getline_src; auto|]. split; [auto|]. subst used. cbn [app firstn]. f_equal.
          destruct rem as [|b rem].
          + exact (firstn_more [] a n).
          + change (last (a :: b :: rem) item) with (last (b :: rem) item).
            assert (El : last (b :: rem) item = last (b :: rem) a) by (clear; revert b; induction rem as [|c rem IH]; intros b; [reflexivity|exact (IH c)]).
            rewrite El. apply firstn_more. }
      destruct Hstep as [a [rem' [Hg [Hnc' ->]]]]. cbn [splitAndCast_loop]. rewrite Hg. destruct (IH rem' a Hnc') as [I1 I2]. split.
      + intros vs H. inversion H as [|? v ? vs' Hc Hr]; subst. rewrite Hc, (I1 vs' Hr). reflexivity.
      + intros [f [[<-|Hin] Hf]]; [rewrite Hf; reflexivity|]. destruct (cast a); [|reflexivity]. rewrite I2; [reflexivity|]. exists f. auto. }
  unfold splitAndCast. rewrite Hsrc. exact (M n fs [] Hnc).
Qed.
(** e.g. one number for a two-dimensional point is used twice *)
Corollary C59_one_number_is_used_twice : forall {T} (cast : text -> option T) s v,
  ~ In comma s -> s <> [] -> cast s = Some v -> splitAndCast cast 2 s = Ok [v; v].
Proof.
  intros T cast s v Hn Hs Hc. destruct (C59_splitAndCast cast 2 s [s]) as [H _]; [split; [discriminate|split; [repeat constructor; auto|reflexivity]]|auto|].
  apply H. cbn [last app repeat firstn]. repeat constructor; auto.
Qed.
Example C59_case : let cast := fun t => if text_eqb t (str "200") then Some 200 else None in
  splitAndCast cast 2 (str "200") = Ok [200; 200] /\ splitAndCast cast 2 (str "200,") = Fail abort.
Proof. split; reflexivity. Qed.

(** * C47 configure *)

(** the class a configuration key stands for *)
Definition kind_table : list (string * kind) :=
  [("fmm", KFMM); ("fmmstar", KFMMStar); ("fmmfib", KFMMFib); ("fmmfibstar", KFMMFibStar); ("sfmm", KSFMM); ("sfmmstar", KSFMMStar);
   ("gmm", KGMM); ("fim", KFIM); ("ufmm", KUFMM); ("fsm", KFSM); ("lsm", KLSM); ("ddqm", KDDQM)]%string.
Definition stands_for (name : text) (k : kind) : Prop := exists n, In (n, k) kind_table /\ name = str n.

(** the constructor call a field list asks for: name, then the arguments of that class *)
Inductive asks {D} (castU : text -> option Z) (castD : text -> option D) : kind -> list text -> made D -> Prop :=
| ask_name : forall k a, asks castU castD k [a] (mkMade k (Some a) [])
| ask_time : forall k a, In k [KFMMStar; KFMMFibStar; KSFMMStar] -> asks castU castD k [a; str "TIME"] (mkMade k (Some a) [AStrat STIME])
| ask_dist : forall k a, In k [KFMMStar; KFMMFibStar; KSFMMStar] -> asks castU castD k [a; str "DISTANCE"] (mkMade k (Some a) [AStrat SDISTANCE])
| ask_dbl : forall k a b v, In k [KGMM; KFIM] -> castD b = Some v -> asks castU castD k [a; b] (mkMade k (Some a) [ADbl v])
| ask_uns : forall k a b v, In k [KFSM; KLSM; KUFMM] -> castU b = Some v -> asks castU castD k [a; b] (mkMade k (Some a) [AUns v])
| ask_ufmm : forall a b c v w, castU b = Some v -> castD c = Some w -> asks castU castD KUFMM [a; b; c] (mkMade KUFMM (Some a) [AUns v; ADbl w]).

(** enough characters for split not to lose anything (see C46) *)
Definition intact (fs : list text) : Prop :=
  match fs with [a] => 3 <= len a | [a; b] => 2 <= len b | [a; b; c] => 1 <= len c | _ => False end.

Lemma split_intact : forall s fs fuel, fields s fs -> s <> [] -> intact fs -> len s < 2 ^ 62 -> (2 * List.length s + 2 <= fuel)%nat -> split fuel s = Ok fs.
Proof.
  intros s fs fuel [Hne [Hnc Hs]] Hse Hi Hl Hf. destruct fs as [|a [|b [|c [|d r]]]]; cbn [intact] in Hi; try contradiction.
  - inversion Hnc; subst. cbn [join] in *. rewrite C46_one_field by auto. destruct (Z.leb_spec (len a) 2); [lia|reflexivity].
  - inversion Hnc as [|? ? ? H2]; subst. inversion H2; subst. cbn [join] in *. rewrite C46_two_fields by auto. destruct (Z.leb_spec (len b) 1); [lia|reflexivity].
  - inversion Hnc as [|? ? ? H2]; subst. inversion H2 as [|? ? ? H3]; subst. inversion H3; subst. apply C46_three_fields; auto.
    intros ->. cbn in Hi. lia.
Qed.

Section C47.
Context {D : Type} (castU : text -> option Z) (castD : text -> option D).

Theorem C47_default : forall name k fuel, stands_for name k ->
  exists n, configure_one castU castD fuel (name, []) = Ok (Some (mkMade k n [])).
Proof.
  intros name k fuel [n [Hin ->]]. cbn in Hin.
  repeat (destruct Hin as [Hin|Hin]; [injection Hin as <- <-; eexists; reflexivity|]). contradiction.
Qed.

(** FMM, FMMFib and SFMM take the whole text as their name; the others the fields *)
Theorem C47_with_parameters : forall name k s fs m fuel,
  stands_for name k -> k <> KDDQM -> s <> [] -> len s < 2 ^ 62 -> (2 * List.length s + 2 <= fuel)%nat ->
  fields s fs -> intact fs ->
  (In k [KFMM; KFMMFib; KSFMM] -> configure_one castU castD fuel (name, s) = Ok (Some (mkMade k (Some s) []))) /\
  (~ In k [KFMM; KFMMFib; KSFMM] -> asks castU castD k fs m -> configure_one castU castD fuel (name, s) = Ok (Some m)).
Proof.
  intros name k s fs m fuel [n [Hin ->]] Hk Hse Hl Hf Hfs Hi.
  assert (E : configure_one castU castD fuel (str n, s) = configure_params castU castD fuel (str n) s) by (unfold configure_one; cbn [fst snd]; destruct s; [contradiction|reflexivity]).
  rewrite E. unfold configure_params. rewrite (split_intact s fs fuel Hfs Hse Hi Hl Hf). cbn [bind].
  cbn in Hin. repeat (destruct Hin as [Hin|Hin]; [injection Hin as <- <-; split;
     [intros HK; try reflexivity; exfalso; cbn in HK; intuition discriminate|
      intros HK HA; try (exfalso; apply HK; cbn; auto; fail);
      inversion HA; subst; try reflexivity;
      try (exfalso; match goal with H : In _ _ |- _ => cbn in H; intuition discriminate end);
      try (exfalso; apply Hk; reflexivity);
      cbn [text_eqb str list_ascii_of_string Ascii.eqb Bool.eqb andb]; unfold configure_dbl, configure_uns, configure_ufmm;
      repeat match goal with H : castU _ = _ |- _ => rewrite H | H : castD _ = _ |- _ => rewrite H end; reflexivity]|]).
  contradiction.
Qed.

(** 'ddqm' with parameters never makes a DDQM solver: it is an LSM, or undefined behaviour *)
Theorem C47_ddqm_with_parameters_is_lsm : forall s fuel r, s <> [] ->
  configure_one castU castD fuel (str "ddqm", s) = r ->
  r = Fail OutOfFuel \/ r = Fail UB \/ exists a, r = Ok (Some (mkMade KLSM (Some a) [])).
Proof.
  intros s fuel r Hs <-. assert (E : configure_one castU castD fuel (str "ddqm", s) = configure_params castU castD fuel (str "ddqm") s) by (unfold configure_one; cbn [fst snd]; destruct s; [contradiction|reflexivity]).
  rewrite E. unfold configure_params.
  assert (NoUB : forall f size pos st item el, split_loop f size pos st item el = Fail OutOfFuel \/ exists r, split_loop f size pos st item el = Ok r).
  { clear. induction f as [|f IH]; intros size pos st item el; cbn [split_loop]; destruct (pos <? size); eauto.
    destruct (getline comma st item) as [st' item']. apply IH. }
  unfold split. destruct (NoUB fuel (u64 (len s - 1)) 1 (mkSs s false) [] []) as [H|[p H]]; rewrite H; cbn [bind]; [left; reflexivity|].
  change (text_eqb (str "ddqm") (str "ddqm")) with true. cbn [text_eqb str list_ascii_of_string Ascii.eqb Bool.eqb andb].
  destruct p as [|a p]; [right; left; reflexivity|right; right; exists a; reflexivity].
Qed.
Theorem C47_ddqm_with_a_name : forall s fuel, ~ In comma s -> 3 <= len s < 2 ^ 62 -> (2 * List.length s + 2 <= fuel)%nat ->
  configure_one castU castD fuel (str "ddqm", s) = Ok (Some (mkMade KLSM (Some s) [])).
Proof.
  intros s fuel Hn Hl Hf. assert (Hs : s <> []) by (intros ->; cbn in Hl; lia).
  assert (E : configure_one castU castD fuel (str "ddqm", s) = configure_params castU castD fuel (str "ddqm") s) by (unfold configure_one; cbn [fst snd]; destruct s; [contradiction|reflexivity]).
  rewrite E. unfold configure_params. rewrite C46_one_field by (auto; lia). destruct (Z.leb_spec (len s) 2); [lia|]. reflexivity.
Qed.

(** a star solver with a strategy that is neither TIME nor DISTANCE: an uninitialised pointer is added *)
Theorem C47_unknown_strategy : forall name k a b fuel,
  stands_for name k -> In k [KFMMStar; KFMMFibStar; KSFMMStar] ->
  ~ In comma a -> ~ In comma b -> 2 <= len b -> b <> str "TIME" -> b <> str "DISTANCE" ->
  len (a ++ comma :: b) < 2 ^ 62 -> (2 * List.length (a ++ comma :: b) + 2 <= fuel)%nat ->
  configure_one castU castD fuel (name, a ++ comma :: b) = Fail UB.
Proof.
  intros name k a b fuel [n [Hin ->]] Hk Hna Hnb Hb HT HD Hl Hf. set (s := a ++ comma :: b) in *.
  assert (Hs : s <> []) by (unfold s; destruct a; discriminate).
  assert (E : configure_one castU castD fuel (str n, s) = configure_params castU castD fuel (str n) s) by (unfold configure_one; cbn [fst snd]; destruct s; [contradiction|reflexivity]).
  rewrite E. unfold configure_params, s. rewrite C46_two_fields by auto. destruct (Z.leb_spec (len b) 1); [lia|]. cbn [bind].
  apply text_eqb_neq in HT, HD.
  assert (S : forall k, configure_star (D := D) k [a; b] = Fail UB) by (intros k'; unfold configure_star; rewrite HT, HD; reflexivity).
  cbn in Hin. repeat (destruct Hin as [Hin|Hin]; [injection Hin as <- <-; try (exfalso; cbn in Hk; intuition discriminate); cbn [text_eqb str list_ascii_of_string Ascii.eqb Bool.eqb andb]; apply S|]).
  contradiction.
Qed.

(** a name of one or two characters makes every solver but FMM, FMMFib and SFMM undefined *)
Theorem C47_short_name : forall name k s fuel,
  stands_for name k -> ~ In k [KFMM; KFMMFib; KSFMM] -> ~ In comma s -> 1 <= len s <= 2 -> (2 * List.length s + 2 <= fuel)%nat ->
  configure_one castU castD fuel (name, s) = Fail UB.
Proof.
  intros name k s fuel [n [Hin ->]] Hk Hn Hl Hf. assert (Hs : s <> []) by (intros ->; cbn in Hl; lia).
  assert (E : configure_one castU castD fuel (str n, s) = configure_params castU castD fuel (str n) s) by (unfold configure_one; cbn [fst snd]; destruct s; [contradiction|reflexivity]).
  rewrite E. unfold configure_params. rewrite C46_one_field by (auto; lia). destruct (Z.leb_spec (len s) 2); [|lia]. cbn [bind].
  cbn in Hin. repeat (destruct Hin as [Hin|Hin]; [injection Hin as <- <-; try (exfalso; apply Hk; cbn; auto; fail); reflexivity|]).
  contradiction.
Qed.

(** a one-character parameter behind the name is ignored, e.g. fsm=FSM,5 runs unlimited sweeps *)
Theorem C47_single_digit_ignored : forall name k a b fuel,
  stands_for name k -> In k [KFMMStar; KFMMFibStar; KSFMMStar; KGMM; KFIM; KUFMM; KFSM; KLSM] ->
  ~ In comma a -> ~ In comma b -> 1 <= len a -> len b = 1 ->
  len (a ++ comma :: b) < 2 ^ 62 -> (2 * List.length (a ++ comma :: b) + 2 <= fuel)%nat ->
  configure_one castU castD fuel (name, a ++ comma :: b) = Ok (Some (mkMade k (Some a) [])).
Proof.
  intros name k a b fuel [n [Hin ->]] Hk Hna Hnb Ha Hb Hl Hf. set (s := a ++ comma :: b) in *.
  assert (Hs : s <> []) by (unfold s; destruct a; discriminate).
  assert (E : configure_one castU castD fuel (str n, s) = configure_params castU castD fuel (str n) s) by (unfold configure_one; cbn [fst snd]; destruct s; [contradiction|reflexivity]).
  rewrite E. unfold configure_params, s. rewrite C46_two_fields by auto. destruct (Z.leb_spec (len b) 1); [|lia].
  destruct (Z.leb_spec (len a + len b) 1); [lia|]. cbn [bind].
  cbn in Hin. repeat (destruct Hin as [Hin|Hin]; [injection Hin as <- <-; try (exfalso; cbn in Hk; intuition discriminate); reflexivity|]).
  contradiction.
Qed.

(** the solvers are added in file order *)
Theorem C47_in_order : forall fuel nps ms,
  Forall2 (fun np m => configure_one castU castD fuel np = Ok (Some m)) nps ms -> configure_solvers castU castD fuel nps = Ok ms.
Proof.
  intros fuel nps ms H. induction H as [|np m nps ms H1 H2 IH]; cbn [configure_solvers]; [reflexivity|]. rewrite H1, IH. reflexivity.
Qed.
End C47.

(** reading the options: [Solvers.<known name>] in any letter case, everything else is dropped; file order is kept *)
Theorem C47_read : forall key val,
  (forall k, In k knownSolvers -> map to_lower key = str "solvers." ++ k -> readSolvers [(key, val)] = [(k, val)]) /\
  ((forall k, In k knownSolvers -> map to_lower key <> str "solvers." ++ k) -> readSolvers [(key, val)] = []).
Proof.
  intros key val. unfold readSolvers. cbn [flat_map fst snd]. split.
  - intros k Hk E. rewrite E, app_nil_r. rewrite firstn_app. change (firstn 8 (str "solvers.")) with (str "solvers."). change (8 - List.length (str "solvers."))%nat with O.
    cbn [firstn]. rewrite app_nil_r, text_eqb_refl. rewrite skipn_app. change (skipn 8 (str "solvers.")) with (@nil ascii). change (8 - List.length (str "solvers."))%nat with O. cbn [skipn app].
    cbn in Hk. repeat (destruct Hk as [<-|Hk]; [reflexivity|]). contradiction.
  - intros H. rewrite app_nil_r. destruct (text_eqb (firstn 8 (map to_lower key)) (str "solvers.")) eqn:E; [|reflexivity].
    apply text_eqb_eq in E. replace (filter _ knownSolvers) with (@nil (list ascii)); [reflexivity|]. symmetry.
    destruct (filter (fun k => text_eqb (skipn 8 (map to_lower key)) k) knownSolvers) as [|k r] eqn:F; [reflexivity|exfalso].
    assert (K : In k (k :: r)) by (left; auto). rewrite <- F in K. apply filter_In in K. destruct K as [K1 K2]. apply text_eqb_eq in K2.
    apply (H k K1). rewrite <- (firstn_skipn 8 (map to_lower key)), E, K2. reflexivity.
Qed.
Theorem C47_read_order : forall a b, readSolvers (a ++ b) = readSolvers a ++ readSolvers b.
Proof. intros a b. apply flat_map_app. Qed.

Example C47_case :
  let castU := fun t => if text_eqb t (str "12") then Some 12 else None in
  let castD := fun t : text => if text_eqb t (str "0.5") then Some tt else None in
  (exists k, stands_for (str "ufmm") k /\ asks castU castD k [str "U"; str "12"; str "0.5"] (mkMade k (Some (str "U")) [AUns 12; ADbl tt])
     /\ fields (str "U,12,0.5") [str "U"; str "12"; str "0.5"] /\ intact [str "U"; str "12"; str "0.5"]) /\
  configure_one castU castD 100 (str "ufmm", str "U,12,0.5") = Ok (Some (mkMade KUFMM (Some (str "U")) [AUns 12; ADbl tt])) /\
  configure_one castU castD 100 (str "fmmstar", str "F,Time") = Fail UB /\
  configure_one castU castD 100 (str "ddqm", str "DDQM") = Ok (Some (mkMade KLSM (Some (str "DDQM")) [])) /\
  configure_one castU castD 100 (str "fsm", str "FSM,5") = Ok (Some (mkMade KFSM (Some (str "FSM")) [])) /\
  readSolvers [(str "Solvers.FMM", []); (str "solvers.foo", []); (str "other.fmm", [])] = [(str "fmm", [])].
Proof.
  cbv zeta. assert (NC : forall t, forallb (fun c => negb (Ascii.eqb c comma)) t = true -> ~ In comma t).
  { intros t H K. rewrite forallb_forall in H. specialize (H _ K). rewrite Ascii.eqb_refl in H. discriminate. }
  split; [|repeat split; reflexivity]. exists KUFMM. split; [exists "ufmm"%string; split; [cbn; intuition auto|reflexivity]|].
  split; [constructor; reflexivity|]. split; [|cbn; lia]. split; [discriminate|]. split; [repeat constructor; apply NC; reflexivity|reflexivity].
Qed.

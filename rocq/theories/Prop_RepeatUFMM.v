(** Prop_RepeatUFMM.v - property theorem C88 for UFMM: compute() called again after a complete
    run (no goal, no reset) changes nothing; every arithmetic, every number of buckets and
    increment, initial points repeated or next to each other. *)
From Coq Require Import Permutation.
From Verif Require Import Base BaseFacts Num NumXR NumF64 NumLaws Grid GridFacts GridUpd GridMore Spec Obs Eikonal FMMModel
  UntidyModel UntidySpec Untidy Frame SolverModel Lifecycle NoGoal FMMStruct UFMMStruct Prop_Solver Prop_History Prop_Calls Prop_Repeat.
Open Scope Z_scope.

(** ** the queue, with duplicates *)
Section Loose.
Context {N : Num}.
Implicit Types q : uq (N := N).

Record LU q : Prop := {
  lu_size : 0 < uq_size q;
  lu_len : Z.of_nat (length (uq_tab q)) = uq_size q;
  lu_i0 : 0 <= uq_i0 q < uq_size q;
  lu_nb : Z.of_nat (length (bag q)) <= uq_nb q
}.

Lemma bucket_at q i b : nth_error (uq_tab q) (Z.to_nat i) = Some b -> bucket q i = b.
Proof. intros H. unfold bucket. apply nth_error_nth with (d := []) in H. exact H. Qed.

Lemma bag_in q x : In x (bag q) <-> exists j, 0 <= j /\ In x (bucket q j).
Proof.
  unfold bag, bucket. rewrite in_concat. split.
  - intros [b [Hb Hx]]. destruct (In_nth _ _ [] Hb) as [n [Hn <-]]. exists (Z.of_nat n). rewrite Nat2Z.id. split; [lia|exact Hx].
  - intros [j [_ Hx]]. exists (nth (Z.to_nat j) (uq_tab q) []). split; [|exact Hx].
    destruct (nth_in_or_default (Z.to_nat j) (uq_tab q) []) as [K|K]; [exact K|]. rewrite K in Hx. destruct Hx.
Qed.

Lemma lbucket q t i : 0 < uq_size q -> uq_bucket q t = Ok i -> 0 <= i < uq_size q /\ i < 4294967296.
Proof.
  intros A H. unfold uq_bucket in H. apply bind_ok in H. destruct H as [z [_ H]].
  destruct (uq_size q =? 0); [discriminate|]. injection H as <-. split; [apply Z.mod_pos_bound, A|].
  set (y := u32 _). assert (0 <= y < 4294967296) by (apply Z.mod_pos_bound; lia). pose proof (Z.mod_le y (uq_size q) ltac:(lia) A). lia.
Qed.

Lemma llen (l : list (list Z)) n b b' : nth_error l n = Some b -> (length b + length (concat (lset l n b')) = length b' + length (concat l))%nat.
Proof. intros H. pose proof (Permutation_length (concat_lset l n b b' H)) as P. rewrite !app_length in P. exact P. Qed.

Lemma lfilter e (b : list Z) : In e b -> (length (filter (fun x => negb (x =? e)%Z) b) < length b)%nat.
Proof.
  assert (K : forall b, (length (filter (fun x => negb (x =? e)%Z) b) <= length b)%nat).
  { clear b. intros b. induction b as [|x b IH]; cbn [filter length]; [lia|]. destruct (negb (x =? e)); cbn [length]; lia. }
  induction b as [|x b IH]; intros H; [destruct H|]. cbn [filter]. destruct (Z.eqb_spec x e) as [->|Hne]; cbn [negb length].
  - pose proof (K b). lia.
  - destruct H as [H|H]; [congruence|]. specialize (IH H). lia.
Qed.

Lemma lpush q e t q' i : LU q -> uq_push q e t = Ok (q', i) ->
  LU q' /\ 0 <= i < 4294967296 /\ uq_size q' = uq_size q /\ uq_inc q' = uq_inc q /\ uq_nb q' = uq_nb q + 1 /\
  (forall j, 0 <= j -> bucket q' j = if j =? i then e :: bucket q j else bucket q j) /\
  (uq_nb q <> 0 -> uq_i0 q' = uq_i0 q /\ uq_t0 q' = uq_t0 q /\ uq_bucket q t = Ok i) /\
  (uq_nb q = 0 -> uq_i0 q' = 0 /\ uq_t0 q' = t /\ i = 0).
Proof.
  intros U H. pose proof U as [A B C D]. unfold uq_push in H. apply bind_ok in H. destruct H as [[q1 k] [H1 H]].
  assert (Hq1 : uq_tab q1 = uq_tab q /\ uq_size q1 = uq_size q /\ uq_inc q1 = uq_inc q /\ uq_nb q1 = uq_nb q /\ 0 <= uq_i0 q1 < uq_size q /\ 0 <= k < uq_size q /\ k < 4294967296 /\
     (uq_nb q <> 0 -> uq_i0 q1 = uq_i0 q /\ uq_t0 q1 = uq_t0 q /\ uq_bucket q t = Ok k) /\ (uq_nb q = 0 -> uq_i0 q1 = 0 /\ uq_t0 q1 = t /\ k = 0)).
  { unfold uq_empty in H1. destruct (Z.eqb_spec (uq_nb q) 0) as [E|E].
    - injection H1 as <- <-. cbn [uq_tab uq_size uq_nb uq_i0 uq_inc uq_t0]. repeat split; auto; try lia; contradiction.
    - apply bind_ok in H1. destruct H1 as [z [Hz H1]]. injection H1 as <- <-. destruct (lbucket q t z A Hz). repeat split; auto; try lia; contradiction. }
  destruct Hq1 as [E1 [E2 [E3 [E4 [E5 [E6 [E7 [E8 E9]]]]]]]]. rewrite E1, E2, E3, E4 in H. apply bind_ok in H. destruct H as [b [Hb H]].
  apply vget_ok in Hb. destruct Hb as [Hb0 Hb]. injection H as <- <-.
  assert (Hlen : (Z.to_nat k < length (uq_tab q))%nat) by (apply nth_error_Some; congruence).
  split; [|split; [lia|split; [reflexivity|split; [reflexivity|split; [reflexivity|split; [|split; [exact E8|exact E9]]]]]]].
  - constructor; cbn [uq_size uq_tab uq_i0 uq_nb]; auto.
    + rewrite length_lset. exact B.
    + unfold bag in *. cbn [uq_tab]. pose proof (llen _ _ _ (e :: b) Hb) as P. cbn [length] in P. lia.
  - intros j Hj. unfold bucket. cbn [uq_tab]. rewrite nth_lset by exact Hlen.
    destruct (Z.eqb_spec j k) as [->|Hne]; [rewrite Nat.eqb_refl; f_equal; symmetry; exact (bucket_at q k b Hb)|].
    destruct (Nat.eqb_spec (Z.to_nat k) (Z.to_nat j)); [lia|reflexivity].
Qed.

Lemma lincr q e bk t q' i : LU q -> 0 <= bk < 4294967296 -> In e (bucket q bk) -> uq_increase q e bk t = Ok (q', i) ->
  LU q' /\ 0 <= i < 4294967296 /\ uq_size q' = uq_size q /\ uq_inc q' = uq_inc q /\ uq_nb q' = uq_nb q /\ uq_i0 q' = uq_i0 q /\ In e (bucket q' i) /\
  (forall j x, 0 <= j -> x <> e -> In x (bucket q j) -> In x (bucket q' j)) /\
  (forall j r m, 0 <= j -> m <> e -> bucket q j = r ++ [m] -> exists r', bucket q' j = r' ++ [m]).
Proof.
  intros U Hbk Hin H. unfold uq_increase in H. apply bind_ok in H. destruct H as [k [Hk H]]. pose proof U as [A B C D]. destruct (lbucket q t k A Hk) as [Hkr Hk2].
  assert (Hu : u32 bk = bk) by (unfold u32; apply Z.mod_small; lia).
  rewrite Hu in H. destruct (Z.eqb_spec k bk) as [->|Hne].
  { injection H as <- <-. repeat split; auto; try lia. intros j r m _ _ E. exists r. exact E. }
  apply bind_ok in H. destruct H as [b [Hb H]]. apply vget_ok in Hb. destruct Hb as [Hb0 Hb]. cbn zeta in H.
  apply bind_ok in H. destruct H as [b2 [Hb2 H]]. apply vget_ok in Hb2. destruct Hb2 as [Hb20 Hb2]. injection H as <- <-.
  set (fb := filter (fun x => negb (x =? e)) b) in *.
  assert (Hlen : (Z.to_nat bk < length (uq_tab q))%nat) by (apply nth_error_Some; congruence).
  assert (Hlen2 : (Z.to_nat k < length (lset (uq_tab q) (Z.to_nat bk) fb))%nat) by (apply nth_error_Some; congruence).
  pose proof (bucket_at q bk b Hb) as Eb. rewrite Eb in Hin.
  assert (Eb2 : b2 = bucket q k).
  { apply nth_error_nth with (d := []) in Hb2. rewrite <- Hb2, nth_lset by exact Hlen. destruct (Nat.eqb_spec (Z.to_nat bk) (Z.to_nat k)); [lia|reflexivity]. }
  assert (BK : forall j, 0 <= j -> bucket (mkUq (lset (lset (uq_tab q) (Z.to_nat bk) fb) (Z.to_nat k) (e :: b2)) (uq_size q) (uq_nb q) (uq_t0 q) (uq_i0 q) (uq_delta q) (uq_inc q)) j =
            if j =? k then e :: bucket q k else if j =? bk then fb else bucket q j).
  { intros j Hj. unfold bucket at 1. cbn [uq_tab]. rewrite nth_lset by exact Hlen2. destruct (Z.eqb_spec j k) as [->|Hjk]; [rewrite Nat.eqb_refl, Eb2; reflexivity|].
    destruct (Nat.eqb_spec (Z.to_nat k) (Z.to_nat j)); [lia|]. rewrite nth_lset by exact Hlen. destruct (Z.eqb_spec j bk) as [->|Hjb]; [rewrite Nat.eqb_refl; reflexivity|].
    destruct (Nat.eqb_spec (Z.to_nat bk) (Z.to_nat j)); [lia|reflexivity]. }
  split; [|split; [lia|split; [reflexivity|split; [reflexivity|split; [reflexivity|split; [reflexivity|split; [|split]]]]]]].
  - constructor; cbn [uq_size uq_tab uq_i0 uq_nb]; auto.
    + rewrite !length_lset. exact B.
    + unfold bag in *. cbn [uq_tab]. pose proof (llen _ _ _ (e :: b2) Hb2) as P. pose proof (llen _ _ _ fb Hb) as P2. pose proof (lfilter e b Hin) as P3. fold fb in P3. cbn [length] in P. lia.
  - rewrite BK by lia. rewrite Z.eqb_refl. left; reflexivity.
  - intros j x Hj Hx K. rewrite BK by exact Hj. destruct (Z.eqb_spec j k) as [->|_]; [right; exact K|]. destruct (Z.eqb_spec j bk) as [->|_]; [|exact K].
    rewrite Eb in K. apply filter_In. split; [exact K|]. destruct (Z.eqb_spec x e); [contradiction|reflexivity].
  - intros j r m Hj Hm E. rewrite BK by exact Hj. destruct (Z.eqb_spec j k) as [->|_]; [rewrite E; exists (e :: r); reflexivity|]. destruct (Z.eqb_spec j bk) as [->|_]; [|exists r; exact E].
    rewrite Eb in E. unfold fb. rewrite E, filter_app. cbn [filter]. destruct (Z.eqb_spec m e); [contradiction|]. cbn [negb]. eexists. reflexivity.
Qed.

Lemma lshift fuel : forall q q', LU q -> uq_shift fuel q = Ok q' ->
  uq_tab q' = uq_tab q /\ uq_size q' = uq_size q /\ uq_inc q' = uq_inc q /\ uq_nb q' = uq_nb q /\ LU q' /\ bucket q' (uq_i0 q') <> [].
Proof.
  induction fuel as [|fuel IH]; intros q q' U H; cbn [uq_shift] in H; apply bind_ok in H; destruct H as [b [Hb H]]; apply vget_ok in Hb; destruct Hb as [Hb0 Hb].
  - destruct b as [|x b]; [discriminate|]. injection H as <-. rewrite (bucket_at _ _ _ Hb). repeat split; auto; try apply U. discriminate.
  - destruct b as [|x b].
    + pose proof U as [A B C D]. destruct (Z.eqb_spec (uq_size q) 0) as [E|E]; [discriminate|]. apply IH in H; [exact H|].
      constructor; cbn [uq_size uq_tab uq_i0 uq_nb]; auto. apply Z.mod_pos_bound. exact A.
    + injection H as <-. rewrite (bucket_at _ _ _ Hb). repeat split; auto; try apply U. discriminate.
Qed.

Lemma ltop q q1 m : LU q -> uq_top q = Ok (q1, m) ->
  LU q1 /\ uq_tab q1 = uq_tab q /\ uq_size q1 = uq_size q /\ uq_inc q1 = uq_inc q /\ uq_nb q1 = uq_nb q /\ exists r, bucket q1 (uq_i0 q1) = r ++ [m].
Proof.
  intros U H. unfold uq_top in H. apply bind_ok in H. destruct H as [q2 [H1 H]]. destruct (lshift _ _ _ U H1) as [A [B [B2 [C [D E]]]]].
  apply bind_ok in H. destruct H as [b [Hb H]]. apply vget_ok in Hb. destruct Hb as [Hb0 Hb].
  destruct (rev b) as [|y r] eqn:Er; [discriminate|]. injection H as <- <-. do 5 (split; [assumption|]).
  exists (rev r). rewrite (bucket_at _ _ _ Hb). apply rev_last, Er.
Qed.

Lemma lpop q q' r m : LU q -> uq_nb q <> 0 -> bucket q (uq_i0 q) = r ++ [m] -> uq_pop q = Ok q' ->
  LU q' /\ uq_size q' = uq_size q /\ uq_inc q' = uq_inc q /\ uq_nb q' = uq_nb q - 1 /\
  forall j, 0 <= j -> bucket q' j = if j =? uq_i0 q then r else bucket q j.
Proof.
  intros U Hnb E H. pose proof U as [A B C D]. unfold uq_pop, uq_empty in H. destruct (Z.eqb_spec (uq_nb q) 0) as [K|_]; [contradiction|].
  destruct (vget_in_range (uq_tab q) (uq_i0 q) ltac:(lia)) as [b Hb]. pose proof Hb as Hv. apply vget_ok in Hv. destruct Hv as [Hb0 Hv].
  pose proof (bucket_at _ _ _ Hv) as Eb. rewrite E in Eb. subst b.
  assert (Hs : uq_shift (uq_fuel q) q = Ok q). { destruct (uq_fuel q); cbn [uq_shift]; rewrite Hb; cbn [bind]; destruct r; reflexivity. }
  rewrite Hs in H. cbn [bind] in H. rewrite Hb in H. cbn [bind] in H. rewrite removelast_last in H. injection H as <-.
  assert (Hlen : (Z.to_nat (uq_i0 q) < length (uq_tab q))%nat) by (apply nth_error_Some; congruence).
  split; [|split; [reflexivity|split; [reflexivity|split; [reflexivity|]]]].
  - constructor; cbn [uq_size uq_tab uq_i0 uq_nb]; auto.
    + rewrite length_lset. exact B.
    + unfold bag in *. cbn [uq_tab]. pose proof (llen _ _ _ r Hv) as P. rewrite app_length in P. cbn [length] in P. lia.
  - intros j Hj. unfold bucket. cbn [uq_tab]. rewrite nth_lset by exact Hlen. destruct (Z.eqb_spec j (uq_i0 q)) as [->|Hne]; [rewrite Nat.eqb_refl; reflexivity|].
    destruct (Nat.eqb_spec (Z.to_nat (uq_i0 q)) (Z.to_nat j)); [lia|reflexivity].
Qed.
End Loose.

(** ** the run, for any initial points *)
Section Run.
Context {N : Num}.
Variable dims : list Z.
Hypothesis Hd2 : dims2 dims.
Hypothesis Hlt : 2 * box_size dims <= 4294967296.
Variable init : list Z.
Hypothesis Hr : forall i, In i init -> 0 <= i < box_size dims.
Variable sz : Z.
Variable ic : N.
Notation GO := (grid_ok dims).
Let Hpr : proper dims := dims2_proper' dims Hd2.

Record RI (done : list Z) (g : grid N) (q : uq (N := N)) : Prop := {
  ri_g : GO g;
  ri_q : LU q;
  ri_k : uq_size q = sz /\ uq_inc q = ic;
  ri_n : forall x c, getCell g x = Ok c -> c_state c = NARROW -> 0 <= c_bucket c < 4294967296 /\ In x (bucket q (c_bucket c));
  ri_s : forall i, In i done -> cst g i = Some FROZEN \/ In i (bag q)
}.
(** the free neighbours of accepted cells other than [m] are accepted or waiting *)
Definition nbs (m : Z) (g : grid N) : Prop := forall i j, cst g i = Some FROZEN -> i <> m -> adjacent dims i j -> at_cell seen j g.
Definition lastly (m : Z) (q : uq (N := N)) : Prop := uq_nb q <> 0 /\ exists r, bucket q (uq_i0 q) = r ++ [m].

Lemma get_upd2 (g g1 g2 : grid N) j f1 f2 x c : updCell g j f1 = Ok g1 -> updCell g1 j f2 = Ok g2 -> getCell g j = Ok c ->
  getCell g2 x = if j =? x then Ok (f2 (f1 c)) else getCell g x.
Proof. intros H1 H2 Hc. rewrite (updCell_get _ _ _ _ x H2), (updCell_get _ _ _ _ x H1). destruct (Z.eqb_spec j x) as [<-|]; [rewrite Hc|]; reflexivity. Qed.

Lemma ri_nb done m s j s' : RI done (uf_g s) (uf_q s) /\ lastly m (uf_q s) /\ cst (uf_g s) m = Some FROZEN /\ nbs m (uf_g s) -> ufmm_neighbor s j = Ok s' ->
  (RI done (uf_g s') (uf_q s') /\ lastly m (uf_q s') /\ cst (uf_g s') m = Some FROZEN /\ nbs m (uf_g s')) /\ at_cell seen j (uf_g s') /\
  forall y, at_cell seen y (uf_g s) -> at_cell seen y (uf_g s').
Proof.
  intros [HI [HL [HM HB]]] H. apply nb_cases in H. destruct H as [c Hc Hs ->|c t Hc Ho Hst Ht Hb ->|c t g1 b Hc Ho Hst Ht Hb H1 Hq H2|c t g1 g2 b Hc Ho Hst Ht H1 H2 Hq H3].
  - split; [auto|]. split; [|auto]. intros c' Hc'. assert (c' = c) by congruence. subst. unfold seen. destruct Hs as [->| ->]; [apply orb_true_r|reflexivity].
  - split; [auto|]. split; [|auto]. intros c' Hc'. assert (c' = c) by congruence. subst. unfold seen. rewrite Hst. apply orb_true_r.
  - destruct HI as [I1 I2 I3 I4 I5]. destruct (I4 j c Hc Hst) as [Hbk Hin].
    destruct (lincr _ _ _ _ _ _ I2 Hbk Hin Hq) as [U' [Hb' [Z1 [Z2 [Z3 [Z4 [Z5 [Z6 Z7]]]]]]]].
    assert (GET : forall x, getCell (uf_g s') x = if j =? x then Ok (with_bucket (with_val c t) b) else getCell (uf_g s) x) by (intros x; exact (get_upd2 _ _ _ _ _ _ x c H1 H2 Hc)).
    assert (ST : forall x, cst (uf_g s') x = cst (uf_g s) x) by (intros x; unfold cst; rewrite GET; destruct (Z.eqb_spec j x) as [<-|]; [rewrite Hc|]; reflexivity).
    assert (Hjm : m <> j) by (intros ->; rewrite (cst_get _ _ _ Hc) in HM; congruence).
    assert (SM : forall y, at_cell seen y (uf_g s) -> at_cell seen y (uf_g s')).
    { intros y K cy Hy. rewrite GET in Hy. destruct (Z.eqb_spec j y) as [<-|]; [|exact (K cy Hy)]. injection Hy as <-. exact (K c Hc). }
    split; [split; [|split; [|split]]|split; [|exact SM]].
    + constructor.
      * eapply updCell_grid_ok; [exact H2|]. eapply updCell_grid_ok; [exact H1|exact I1].
      * exact U'.
      * rewrite Z1, Z2. exact I3.
      * intros x cx Hx Sx. rewrite GET in Hx. destruct (Z.eqb_spec j x) as [<-|Hne]; [injection Hx as <-; split; assumption|].
        destruct (I4 x cx Hx Sx) as [K1 K2]. split; [exact K1|]. apply Z6; [lia|congruence|exact K2].
      * intros i Hi. rewrite ST. destruct (I5 i Hi) as [K|K]; [left; exact K|right]. apply bag_in. destruct (Z.eq_dec i j) as [->|Hne]; [exists b; split; [lia|exact Z5]|].
        apply bag_in in K. destruct K as [k [Hk K]]. exists k. split; [exact Hk|]. apply Z6; assumption.
    + destruct HL as [L1 [r L2]]. split; [congruence|]. rewrite Z4. exact (Z7 _ r m (proj1 (lu_i0 _ I2)) Hjm L2).
    + rewrite ST. exact HM.
    + intros i k Hi Hne Ha. apply SM. rewrite ST in Hi. exact (HB i k Hi Hne Ha).
    + intros cj Hcj. rewrite GET, Z.eqb_refl in Hcj. injection Hcj as <-. unfold seen. cbn. rewrite Hst. apply orb_true_r.
  - destruct HI as [I1 I2 I3 I4 I5].
    destruct (lpush _ _ _ _ _ I2 Hq) as [U' [Hb' [Z1 [Z2 [Z3 [Z4 [Z5 _]]]]]]]. destruct HL as [L1 [r L2]]. destruct (Z5 L1) as [Z6 _].
    assert (GET : forall x, getCell (uf_g s') x = if j =? x then Ok (with_bucket (with_val (with_state c NARROW) t) b) else getCell (uf_g s) x).
    { intros x. rewrite (updCell_get _ _ _ _ x H3), (updCell_get _ _ _ _ x H2), (updCell_get _ _ _ _ x H1). destruct (Z.eqb_spec j x) as [<-|]; [rewrite Hc|]; reflexivity. }
    assert (Hjm : m <> j) by (intros ->; rewrite (cst_get _ _ _ Hc) in HM; congruence).
    assert (ST : forall x, x <> j -> cst (uf_g s') x = cst (uf_g s) x) by (intros x Hx; unfold cst; rewrite GET; destruct (Z.eqb_spec j x) as [<-|]; [contradiction|reflexivity]).
    assert (STj : cst (uf_g s') j = Some NARROW) by (unfold cst; rewrite GET, Z.eqb_refl; reflexivity).
    assert (SM : forall y, at_cell seen y (uf_g s) -> at_cell seen y (uf_g s')).
    { intros y K cy Hy. rewrite GET in Hy. destruct (Z.eqb_spec j y) as [<-|]; [|exact (K cy Hy)]. injection Hy as <-. unfold seen. cbn. apply orb_true_r. }
    assert (IN : forall x k, 0 <= k -> In x (bucket (uf_q s) k) -> In x (bucket (uf_q s') k)).
    { intros x k Hk K. rewrite Z4 by exact Hk. destruct (k =? b); [right|]; exact K. }
    split; [split; [|split; [|split]]|split; [|exact SM]].
    + constructor.
      * eapply updCell_grid_ok; [exact H3|]. eapply updCell_grid_ok; [exact H2|]. eapply updCell_grid_ok; [exact H1|exact I1].
      * exact U'.
      * rewrite Z1, Z2. exact I3.
      * intros x cx Hx Sx. rewrite GET in Hx. destruct (Z.eqb_spec j x) as [<-|Hne].
        -- injection Hx as <-. split; [exact Hb'|]. cbn [with_bucket c_bucket]. rewrite Z4, Z.eqb_refl by lia. left; reflexivity.
        -- destruct (I4 x cx Hx Sx) as [K1 K2]. split; [exact K1|]. apply IN; [lia|exact K2].
      * intros i Hi. assert (BG : In i (bag (uf_q s)) -> In i (bag (uf_q s'))) by (rewrite !bag_in; intros [k [Hk K]]; exists k; auto).
        destruct (Z.eq_dec i j) as [->|Hne]; [|rewrite ST by exact Hne; destruct (I5 i Hi); auto]. destruct (I5 j Hi) as [K|K]; [|right; auto]. rewrite (cst_get _ _ _ Hc) in K. congruence.
    + pose proof (lu_nb _ I2). split; [lia|]. rewrite Z6, Z4 by (apply (lu_i0 _ I2)). destruct (uq_i0 (uf_q s) =? b); rewrite L2; [exists (j :: r); reflexivity|exists r; reflexivity].
    + rewrite ST by exact Hjm. exact HM.
    + intros i k Hi Hne Ha. apply SM. destruct (Z.eq_dec i j) as [->|Hij]; [congruence|]. rewrite ST in Hi by exact Hij. exact (HB i k Hi Hne Ha).
    + intros cj Hcj. rewrite GET, Z.eqb_refl in Hcj. injection Hcj as <-. unfold seen. cbn. apply orb_true_r.
Qed.

Lemma ri_step done s m s' : RI done (uf_g s) (uf_q s) -> uq_nb (uf_q s) <> 0 -> (forall k, nbs k (uf_g s)) -> ufmm_step s = Ok (m, s') ->
  RI done (uf_g s') (uf_q s') /\ (forall k, nbs k (uf_g s')) /\ 0 <= m < box_size dims.
Proof.
  intros HI Hnb HB H. unfold ufmm_step in H. apply bind_ok in H. destruct H as [[q1 m1] [Ht H]]. apply bind_ok in H. destruct H as [g1 [H1 H]].
  apply bind_ok in H. destruct H as [ns [Hns H]]. apply bind_ok in H. destruct H as [s2 [H2 H]]. apply bind_ok in H. destruct H as [q3 [H3 H]]. injection H as <- <-. cbn [uf_g uf_q].
  rename m1 into m. destruct HI as [I1 I2 I3 I4 I5]. destruct (ltop _ _ _ I2 Ht) as [U1 [T1 [T2 [T3 [T4 T5]]]]].
  assert (BK : forall k, bucket q1 k = bucket (uf_q s) k) by (intros k; unfold bucket; rewrite T1; reflexivity).
  assert (BG : bag q1 = bag (uf_q s)) by (unfold bag; rewrite T1; reflexivity).
  pose proof (proj1 (updCell_ok _ _ _ _) H1) as [c [Hc _]]. pose proof (getCell_range _ _ _ Hc) as Hm. rewrite (proj2 I1) in Hm.
  assert (GET : forall x, getCell g1 x = if m =? x then Ok (with_state c FROZEN) else getCell (uf_g s) x).
  { intros x. rewrite (updCell_get _ _ _ _ x H1). destruct (Z.eqb_spec m x) as [<-|]; [rewrite Hc|]; reflexivity. }
  assert (G1 : GO g1) by (eapply updCell_grid_ok; [exact H1|exact I1]).
  assert (SM : forall y, at_cell seen y (uf_g s) -> at_cell seen y g1).
  { intros y K cy Hy. rewrite GET in Hy. destruct (Z.eqb_spec m y) as [<-|]; [|exact (K cy Hy)]. injection Hy as <-. unfold seen. cbn. apply orb_true_r. }
  assert (P0 : RI done (uf_g (mkUf g1 q1)) (uf_q (mkUf g1 q1)) /\ lastly m (uf_q (mkUf g1 q1)) /\ cst (uf_g (mkUf g1 q1)) m = Some FROZEN /\ nbs m (uf_g (mkUf g1 q1))).
  { cbn [uf_g uf_q]. split; [|split; [|split]].
    - constructor; auto.
      + rewrite T2, T3. exact I3.
      + intros x cx Hx Sx. rewrite BK. rewrite GET in Hx. destruct (Z.eqb_spec m x) as [<-|]; [injection Hx as <-; discriminate|]. exact (I4 x cx Hx Sx).
      + intros i Hi. rewrite BG. unfold cst. rewrite GET. destruct (Z.eqb_spec m i) as [<-|]; [left; reflexivity|]. exact (I5 i Hi).
    - split; [congruence|exact T5].
    - unfold cst. rewrite GET, Z.eqb_refl. reflexivity.
    - intros i j Hi Hne Ha. apply SM. apply (HB m i j); auto. unfold cst in *. rewrite GET in Hi. destruct (Z.eqb_spec m i) as [<-|]; [contradiction|exact Hi]. }
  rewrite (proj1 G1), getNeighbors_eq in Hns by auto. injection Hns as <-.
  destruct (fold_marks (fun s => RI done (uf_g s) (uf_q s) /\ lastly m (uf_q s) /\ cst (uf_g s) m = Some FROZEN /\ nbs m (uf_g s)) (fun y s => at_cell seen y (uf_g s))
     ufmm_neighbor (nbrs dims m) (mkUf g1 q1) s2 P0) as [[J [JL [JM JB]]] [JQ _]]; [|exact H2|].
  { intros s0 x s1 _ HP Hx. exact (ri_nb done m s0 x s1 HP Hx). }
  destruct JL as [L1 [r L2]]. destruct J as [J1 J2 J3 J4 J5].
  destruct (lpop _ _ _ _ J2 L1 L2 H3) as [U3 [Y1 [Y2 [Y3 Y4]]]].
  assert (KEEP : forall x k, 0 <= k -> x <> m -> In x (bucket (uf_q s2) k) -> In x (bucket q3 k)).
  { intros x k Hk Hx K. rewrite Y4 by exact Hk. destruct (Z.eqb_spec k (uq_i0 (uf_q s2))) as [->|]; [|exact K]. rewrite L2 in K. apply in_app_or in K. destruct K as [K|[K|[]]]; [exact K|congruence]. }
  split; [|split; [|exact Hm]].
  - constructor; auto.
    + rewrite Y1, Y2. exact J3.
    + intros x cx Hx Sx. destruct (J4 x cx Hx Sx) as [K1 K2]. split; [exact K1|]. apply KEEP; [lia| |exact K2]. intros ->. rewrite (cst_get _ _ _ Hx) in JM. congruence.
    + intros i Hi. destruct (Z.eq_dec i m) as [->|Hne]; [left; exact JM|]. destruct (J5 i Hi) as [K|K]; [left; exact K|right]. apply bag_in in K. apply bag_in. destruct K as [k [Hk K]]. exists k. split; [exact Hk|]. apply KEEP; assumption.
  - intros k i j Hi _ Ha. destruct (Z.eq_dec i m) as [->|Hne]; [|exact (JB i j Hi Hne Ha)]. apply JQ. apply nbrs_spec; auto.
Qed.

Lemma ri_loop done fuel : forall s log s' log', RI done (uf_g s) (uf_q s) -> (forall k, nbs k (uf_g s)) -> ufmm_loop fuel noGoal s log = Ok (s', log') ->
  RI done (uf_g s') (uf_q s') /\ (forall k, nbs k (uf_g s')) /\ uq_nb (uf_q s') = 0.
Proof.
  induction fuel as [|fuel IH]; intros s log s' log' HI HB H; cbn [ufmm_loop] in H; unfold uq_empty in H; destruct (Z.eqb_spec (uq_nb (uf_q s)) 0) as [E|E]; try discriminate.
  - injection H as <- <-. auto.
  - injection H as <- <-. auto.
  - apply bind_ok in H. destruct H as [[m s1] [H1 H]]. destruct (ri_step _ _ _ _ HI E HB H1) as [A [B C]].
    destruct (Z.eqb_spec m noGoal) as [K|_]; [unfold noGoal in K; lia|]. exact (IH s1 _ _ _ A B H).
Qed.

Definition seed1 (s : uf_state (N := N)) (i : Z) : res uf_state := g1 <- setArrivalTime (uf_g s) i n0 ;; uf_push (mkUf g1 (uf_q s)) i.
Definition castok : Prop := exists z, cast_floor_u32 ((n0 - n0) * nofZ sz / ic)%num = Ok z.

Lemma seed1_ok s i s' : seed1 s i = Ok s' -> exists c b, getCell (uf_g s) i = Ok c /\ uq_push (uf_q s) i n0 = Ok (uf_q s', b) /\
  (forall x, getCell (uf_g s') x = if i =? x then Ok (with_bucket (with_val c n0) b) else getCell (uf_g s) x) /\ (GO (uf_g s) -> GO (uf_g s')).
Proof.
  intros H. unfold seed1 in H. apply bind_ok in H. destruct H as [g1 [H1 H]]. unfold uf_push in H. cbn [uf_g uf_q] in H.
  apply bind_ok in H. destruct H as [t [Ht H]]. rewrite (val_set _ _ _ _ i H1), Z.eqb_refl in Ht. injection Ht as <-.
  apply bind_ok in H. destruct H as [[q b] [Hq H]]. apply bind_ok in H. destruct H as [g2 [H2 H]]. injection H as <-. cbn [uf_g uf_q].
  pose proof (proj1 (updCell_ok _ _ _ _) H1) as [c [Hc _]]. exists c, b. split; [exact Hc|]. split; [exact Hq|]. split.
  - intros x. exact (get_upd2 _ _ _ _ _ _ x c H1 H2 Hc).
  - intros G. eapply updCell_grid_ok; [exact H2|]. eapply updCell_grid_ok; [exact H1|exact G].
Qed.

(** *** the first run: the initial points enter a queue on a grid of OPEN cells *)
Definition all_open (g : grid N) : Prop := forall x c, getCell g x = Ok c -> c_state c = OPEN.
Lemma ri_seed : forall l D s s', RI D (uf_g s) (uf_q s) -> all_open (uf_g s) -> foldM seed1 l s = Ok s' ->
  RI (l ++ D) (uf_g s') (uf_q s') /\ all_open (uf_g s').
Proof.
  induction l as [|i l IH]; intros D s s' HI HO H; cbn [foldM] in H; [injection H as <-; auto|]. apply bind_ok in H. destruct H as [s1 [H1 H]].
  destruct (seed1_ok _ _ _ H1) as [c [b [Hc [Hq [GET HG]]]]]. destruct HI as [I1 I2 I3 I4 I5]. destruct (lpush _ _ _ _ _ I2 Hq) as [U' [Hb' [Z1 [Z2 [Z3 [Z4 _]]]]]].
  assert (HO1 : all_open (uf_g s1)). { intros x cx Hx. rewrite GET in Hx. destruct (i =? x); [injection Hx as <-; exact (HO i c Hc)|exact (HO x cx Hx)]. }
  assert (R1 : RI (i :: D) (uf_g s1) (uf_q s1)).
  { constructor; auto.
    - rewrite Z1, Z2. exact I3.
    - intros x cx Hx Sx. rewrite (HO1 x cx Hx) in Sx. discriminate.
    - intros x [<-|Hx].
      + right. apply bag_in. exists b. split; [lia|]. rewrite Z4, Z.eqb_refl by lia. left; reflexivity.
      + destruct (I5 x Hx) as [K|K].
        * exfalso. unfold cst in K. destruct (getCell (uf_g s) x) as [cx|] eqn:E; [|discriminate]. rewrite (HO x cx E) in K. discriminate.
        * right. apply bag_in in K. apply bag_in. destruct K as [k [Hk K]]. exists k. split; [exact Hk|]. rewrite Z4 by exact Hk. destruct (k =? b); [right|]; exact K. }
  destruct (IH (i :: D) s1 s' R1 HO1 H) as [A B]. split; [|exact B]. destruct A as [A1 A2 A3 A4 A5]. constructor; auto.
  intros x Hx. apply A5. cbn [app In] in Hx |- *. rewrite in_app_iff in *. cbn [In]. tauto.
Qed.

Lemma seeds_cast l s s' : LU (uf_q s) -> uq_size (uf_q s) = sz /\ uq_inc (uf_q s) = ic -> uq_nb (uf_q s) = 0 -> foldM seed1 l s = Ok s' -> (length l <= 1)%nat \/ castok.
Proof.
  intros U [S1 S2] Hz H. destruct l as [|a [|b l]]; [left; cbn; lia|left; cbn; lia|right]. cbn [foldM] in H.
  apply bind_ok in H. destruct H as [s1 [H1 H]]. apply bind_ok in H. destruct H as [s2 [H2 _]].
  destruct (seed1_ok _ _ _ H1) as [_ [b1 [_ [Hq1 _]]]]. destruct (lpush _ _ _ _ _ U Hq1) as [U1 [_ [Z1 [Z2 [Z3 [_ [_ Z0]]]]]]]. destruct (Z0 Hz) as [_ [T0 _]].
  destruct (seed1_ok _ _ _ H2) as [_ [b2 [_ [Hq2 _]]]]. destruct (lpush _ _ _ _ _ U1 Hq2) as [_ [_ [_ [_ [_ [_ [Z5 _]]]]]]]. destruct (Z5 ltac:(lia)) as [_ [_ K]].
  unfold uq_bucket in K. apply bind_ok in K. destruct K as [z [K _]]. exists z. rewrite T0, Z1, Z2, S1, S2 in K. exact K.
Qed.

Lemma first_run fuel g q s log : clean_grid dims g -> LU q -> uq_size q = sz /\ uq_inc q = ic -> uq_nb q = 0 ->
  ufmm_run fuel noGoal init g q = Ok (s, log) ->
  GO (uf_g s) /\ around dims shut init (uf_g s) /\ UI (uf_q s) /\ bag (uf_q s) = [] /\ (uq_size (uf_q s) = sz /\ uq_inc (uf_q s) = ic) /\ ((length init <= 1)%nat \/ castok).
Proof.
  intros [Hg Hc] U K Hz H. unfold ufmm_run in H. apply bind_ok in H. destruct H as [s1 [H1 H]]. change (foldM seed1 init (mkUf g q) = Ok s1) in H1.
  assert (HO : all_open g) by (intros x c Hx; apply (Hc x c Hx)).
  assert (R0 : RI [] g q). { constructor; auto. - intros x c Hx Sx. rewrite (HO x c Hx) in Sx. discriminate. - intros i []. }
  pose proof (seeds_cast init (mkUf g q) _ U K Hz H1) as HC. destruct (ri_seed init [] (mkUf g q) s1 R0 HO H1) as [R1 HO1].
  assert (B1 : forall k, nbs k (uf_g s1)).
  { intros k i j Hi. exfalso. unfold cst in Hi. destruct (getCell (uf_g s1) i) as [ci|] eqn:E; [|discriminate]. rewrite (HO1 i ci E) in Hi. discriminate. }
  destruct (ri_loop _ _ _ _ _ _ R1 B1 H) as [[J1 J2 J3 J4 J5] [JB JZ]].
  pose proof J2 as [U1 U2 U3 U4]. assert (EB : bag (uf_q s) = []) by (destruct (bag (uf_q s)); [reflexivity|cbn [length] in U4; lia]).
  split; [exact J1|]. split; [|split; [|split; [exact EB|split; [exact J3|exact HC]]]].
  - intros i j Hi Ha c Hcj. assert (Fi : cst (uf_g s) i = Some FROZEN).
    { destruct (J5 i) as [F|F]; [apply in_or_app; left; exact Hi|exact F|]. rewrite EB in F. destruct F. }
    pose proof (JB (-1) i j Fi ltac:(specialize (Hr i Hi); lia) Ha c Hcj) as S. unfold seen in S. unfold shut. destruct (isOccupied c) eqn:Eo; [apply orb_true_r|]. rewrite orb_false_r.
    destruct (c_state c) eqn:Es; [discriminate| |reflexivity]. exfalso. destruct (J4 j c Hcj Es) as [Hb Hin]. assert (F : In j (bag (uf_q s))) by (apply bag_in; eexists; split; [|exact Hin]; lia).
    rewrite EB in F. destruct F.
  - constructor; auto. rewrite EB. cbn. exact JZ.
Qed.

(** *** the next run *)
Definition pushable (l : list Z) (q : uq (N := N)) : Prop :=
  l = [] \/ (uq_nb q = 0 /\ ((length l <= 1)%nat \/ castok)) \/ (castok /\ uq_t0 q = n0).

Lemma seed1_total l i s : pushable (i :: l) (uf_q s) -> UI (uf_q s) -> uq_size (uf_q s) = sz /\ uq_inc (uf_q s) = ic -> GO (uf_g s) -> 0 <= i < box_size dims ->
  exists s', seed1 s i = Ok s' /\ pushable l (uf_q s').
Proof.
  intros HP U [S1 S2] G Hi. destruct (getCell_in dims (uf_g s) i G Hi) as [c Hc].
  destruct (updCell_in (uf_g s) i c (fun c => with_val c n0) Hc) as [g1 H1]. change (setArrivalTime (uf_g s) i n0 = Ok g1) in H1.
  unfold seed1. rewrite H1. cbn [bind]. unfold uf_push. cbn [uf_g uf_q]. rewrite (val_set _ _ _ _ i H1), Z.eqb_refl. cbn [bind].
  pose proof U as [A B C D].
  assert (E : exists q1 k, (if uq_empty (uf_q s) then Ok (mkUq (uq_tab (uf_q s)) (uq_size (uf_q s)) (uq_nb (uf_q s)) n0 0 (uq_delta (uf_q s)) (uq_inc (uf_q s)), 0)
                 else i <- uq_bucket (uf_q s) n0 ;; Ok (uf_q s, i)) = Ok (q1, k) /\ uq_tab q1 = uq_tab (uf_q s) /\ 0 <= k < uq_size (uf_q s) /\ uq_t0 q1 = n0 /\ (l = [] \/ castok)).
  { unfold uq_empty. destruct (Z.eqb_spec (uq_nb (uf_q s)) 0) as [E|E].
    - eexists. exists 0. split; [reflexivity|]. cbn. split; [reflexivity|]. split; [lia|]. split; [reflexivity|].
      destruct HP as [HP|[[_ [HP|HP]]|[HP _]]]; [discriminate| |right; exact HP|right; exact HP]. left. destruct l; [reflexivity|cbn in HP; lia].
    - destruct HP as [HP|[[HP _]|[[z HP] HT]]]; [discriminate|contradiction|]. exists (uf_q s).
      exists (u32 ((if uq_size (uf_q s) <=? z then uq_size (uf_q s) - 1 else z) + uq_i0 (uf_q s)) mod uq_size (uf_q s)).
      unfold uq_bucket. rewrite HT, S1, S2, HP. cbn [bind]. destruct (Z.eqb_spec sz 0); [lia|]. cbn [bind]. split; [reflexivity|]. split; [reflexivity|]. split; [apply Z.mod_pos_bound; lia|].
      split; [reflexivity|right; exists z; exact HP]. }
  destruct E as [q1 [k [E [T1 [K [T0 HL]]]]]]. unfold uq_push. rewrite E. cbn [bind]. rewrite T1.
  destruct (vget_in_range (uq_tab (uf_q s)) k ltac:(lia)) as [b Hb]. rewrite Hb. cbn [bind].
  destruct (updCell_in g1 i (with_val c n0) (fun c => with_bucket c k) ltac:(rewrite (updCell_get _ _ _ _ i H1), Z.eqb_refl, Hc; reflexivity)) as [g2 H2]. change (setBucket g1 i k = Ok g2) in H2. rewrite H2.
  eexists. split; [reflexivity|]. cbn [uf_q]. destruct HL as [->|HL]; [left; reflexivity|right; right; split; [exact HL|exact T0]].
Qed.

Lemma again_seed : forall l s, (forall i, In i l -> In i init) -> GO (uf_g s) -> around dims shut init (uf_g s) -> UI (uf_q s) -> uq_size (uf_q s) = sz /\ uq_inc (uf_q s) = ic -> pushable l (uf_q s) ->
  exists s', foldM seed1 l s = Ok s' /\ GO (uf_g s') /\ around dims shut init (uf_g s') /\ UI (uf_q s') /\ (uq_size (uf_q s') = sz /\ uq_inc (uf_q s') = ic) /\
    uq_nb (uf_q s') = Z.of_nat (length l) + uq_nb (uf_q s) /\ (forall x, In x (bag (uf_q s')) -> In x l \/ In x (bag (uf_q s))) /\
    (forall i, In i l -> time_is (uf_g s') i n0) /\ (forall i, time_is (uf_g s) i n0 -> time_is (uf_g s') i n0) /\ forall i, ~ In i init -> getCell (uf_g s') i = getCell (uf_g s) i.
Proof.
  induction l as [|i l IH]; intros s Hl HG HA HU HK HP.
  - exists s. cbn [foldM length]. split; [reflexivity|]. repeat split; auto; try apply HG; try apply HU; try apply HK; try (intros i []).
  - assert (Hi : In i init) by (apply Hl; left; reflexivity). destruct (seed1_total l i s HP HU HK HG (Hr i Hi)) as [s1 [E1 HP1]].
    destruct (seed1_ok _ _ _ E1) as [c [b [Hc [Hq [GET HG1]]]]]. destruct (push_spec _ _ _ _ _ HU Hq) as [U1 [P1 [_ [S1 [_ [_ [N1 _]]]]]]].
    assert (LU0 : LU (uf_q s)) by (destruct HU as [A B C D]; constructor; lia). destruct (lpush _ _ _ _ _ LU0 Hq) as [_ [_ [_ [S2 _]]]].
    assert (A1 : around dims shut init (uf_g s1)).
    { intros x y Hx Hxy cy Hy. rewrite GET in Hy. destruct (Z.eqb_spec i y) as [<-|]; [|exact (HA x y Hx Hxy cy Hy)]. injection Hy as <-. exact (HA x i Hx Hxy c Hc). }
    destruct (IH s1 (fun x Hx => Hl x (or_intror Hx)) (HG1 HG) A1 U1) as [s' [E [G' [A' [U' [K' [N' [B' [T1 [T2 O]]]]]]]]]]; [rewrite S1, S2; exact HK|exact HP1|].
    exists s'. cbn [foldM]. rewrite E1. cbn [bind]. split; [exact E|]. split; [exact G'|]. split; [exact A'|]. split; [exact U'|]. split; [exact K'|]. split; [|split; [|split; [|split]]].
    + rewrite N', N1. cbn [length]. lia.
    + intros x Hx. destruct (B' x Hx) as [K|K]; [left; right; exact K|]. apply (Permutation_in _ P1) in K. destruct K as [K|K]; [left; left; exact K|right; exact K].
    + intros x [<-|Hx]; [|exact (T1 x Hx)]. apply T2. unfold time_is, getArrivalTime. rewrite GET, Z.eqb_refl. reflexivity.
    + intros x Hx. apply T2. unfold time_is, getArrivalTime in *. rewrite GET. destruct (Z.eqb_spec i x) as [<-|]; [reflexivity|exact Hx].
    + intros x Hx. rewrite (O x Hx), GET. destruct (Z.eqb_spec i x) as [<-|]; [contradiction|reflexivity].
Qed.

Lemma again_drain : forall n fuel s log, length (bag (uf_q s)) = n -> (n <= fuel)%nat -> (forall i, In i (bag (uf_q s)) -> In i init) ->
  GO (uf_g s) -> around dims shut init (uf_g s) -> UI (uf_q s) -> uq_size (uf_q s) = sz /\ uq_inc (uf_q s) = ic ->
  exists s' log', ufmm_loop fuel noGoal s log = Ok (s', log') /\ GO (uf_g s') /\ around dims shut init (uf_g s') /\ UI (uf_q s') /\ (uq_size (uf_q s') = sz /\ uq_inc (uf_q s') = ic) /\ bag (uf_q s') = [] /\
    (forall i, getArrivalTime (uf_g s') i = getArrivalTime (uf_g s) i) /\ forall i, ~ In i init -> getCell (uf_g s') i = getCell (uf_g s) i.
Proof.
  induction n as [|n IH]; intros fuel s log Hn Hf Hin HG HA HU HK.
  - assert (E : bag (uf_q s) = []) by (destruct (bag (uf_q s)); [reflexivity|discriminate]).
    exists s, log. split; [|repeat split; auto; try apply HG; try apply HU; try apply HK]. assert (Z0 : uq_empty (uf_q s) = true) by (unfold uq_empty; rewrite (ui_nb _ HU), E; reflexivity).
    destruct fuel; cbn [ufmm_loop]; rewrite Z0; reflexivity.
  - destruct fuel as [|fuel]; [lia|]. assert (Hnb : uq_nb (uf_q s) <> 0) by (rewrite (ui_nb _ HU), Hn; lia).
    assert (Z0 : uq_empty (uf_q s) = false) by (apply Z.eqb_neq; exact Hnb). cbn [ufmm_loop]. rewrite Z0.
    destruct (top_total (uf_q s) HU) as [q1 [m Ht]]; [intros E; rewrite E in Hn; discriminate|].
    destruct (top_spec _ _ _ HU Ht) as [U1 [T1 [T2 [T3 [r T4]]]]].
    assert (Hm : In m init). { apply Hin. change (In m (bag (uf_q s))). unfold bag. rewrite <- T1. apply (bag_in q1). exists (uq_i0 q1). split; [apply (ui_i0 _ U1)|]. rewrite T4. apply in_or_app. right. left. reflexivity. }
    destruct (getCell_in dims (uf_g s) m HG (Hr m Hm)) as [c Hc].
    destruct (updCell_in (uf_g s) m c (fun c => with_state c FROZEN) Hc) as [g2 H2]. change (setState (uf_g s) m FROZEN = Ok g2) in H2.
    pose proof (updCell_grid_ok _ _ _ _ _ H2 HG) as G2.
    assert (A2 : around dims shut init g2). { intros a b Ha Hab. eapply at_upd; [|exact H2|exact (HA a b Ha Hab)]. reflexivity. }
    assert (K : forall ns, (forall j, In j ns -> adjacent dims m j) -> foldM ufmm_neighbor ns (mkUf g2 q1) = Ok (mkUf g2 q1)).
    { induction ns as [|j ns IHn]; intros Hj; cbn [foldM]; [reflexivity|]. unfold ufmm_neighbor at 1. cbn [uf_g]. pose proof (Hj j (or_introl eq_refl)) as Haj.
      destruct (getCell_in dims g2 j G2 (proj2 (adjacent_range _ _ _ Haj))) as [cj Hcj]. rewrite Hcj. cbn [bind]. pose proof (A2 m j Hm Haj cj Hcj) as Hs. unfold shut in Hs. rewrite Hs.
      cbn [bind]. apply IHn. intros x Hx. apply Hj. right; exact Hx. }
    assert (Ht1 : uq_top q1 = Ok (q1, m)).
    { apply (top_here q1 r m U1 T4). }
    destruct (pop_total q1 U1) as [q3 Hp]. assert (Hnb1 : uq_nb q1 <> 0) by congruence. destruct (pop_spec q1 q1 m q3 U1 Hnb1 Ht1 Hp) as [U3 [P3 [S3 [N3 _]]]].
    assert (I3 : uq_inc q3 = uq_inc (uf_q s)).
    { assert (L0 : LU (uf_q s)) by (destruct HU as [? ? ? ?]; constructor; lia). assert (L1 : LU q1) by (destruct U1 as [? ? ? ?]; constructor; lia).
      destruct (ltop _ _ _ L0 Ht) as [_ [_ [_ [Y1 _]]]]. destruct (lpop _ _ _ _ L1 Hnb1 T4 Hp) as [_ [_ [Y2 _]]]. congruence. }
    unfold ufmm_step. rewrite Ht. cbn [bind]. rewrite H2. cbn [bind]. rewrite (proj1 G2), getNeighbors_eq by auto. cbn [bind].
    rewrite K by (intros j Hj; apply nbrs_spec in Hj; auto). cbn [bind uf_q uf_g]. rewrite Hp. cbn [bind].
    assert (Hmg : m =? noGoal = false) by (apply Z.eqb_neq; specialize (Hr m Hm); unfold noGoal; lia). rewrite Hmg.
    assert (BG : bag q1 = bag (uf_q s)) by (unfold bag; rewrite T1; reflexivity). rewrite BG in P3.
    destruct (IH fuel (mkUf g2 q3) (m :: log)) as [s' [log' [E [G' [A' [U' [K' [E' [T O]]]]]]]]]; cbn [uf_g uf_q]; auto.
    + apply Permutation_length in P3. cbn [length] in P3. lia.
    + lia.
    + intros x Hx. apply Hin. eapply Permutation_in; [symmetry; exact P3|right; exact Hx].
    + rewrite S3, T2, I3. exact HK.
    + exists s', log'. split; [exact E|]. split; [exact G'|]. split; [exact A'|]. split; [exact U'|]. split; [exact K'|]. split; [exact E'|]. split.
      * intros x. rewrite T. cbn [uf_g]. eapply upd_keep_time; [|exact H2]. reflexivity.
      * intros x Hx. rewrite (O x Hx). cbn [uf_g]. rewrite (updCell_get _ _ _ _ x H2). destruct (Z.eqb_spec m x) as [->|Hne]; [contradiction|reflexivity].
Qed.

Lemma ufmm_again fuel g q : (length init <= fuel)%nat -> GO g -> around dims shut init g -> UI q -> bag q = [] -> uq_size q = sz /\ uq_inc q = ic -> (length init <= 1)%nat \/ castok ->
  exists s log, ufmm_run fuel noGoal init g q = Ok (s, log) /\ GO (uf_g s) /\ around dims shut init (uf_g s) /\ UI (uf_q s) /\ bag (uf_q s) = [] /\
    (uq_size (uf_q s) = sz /\ uq_inc (uf_q s) = ic) /\ only_sources init g (uf_g s).
Proof.
  intros Hf HG HA HU HE HK HC. assert (Hz : uq_nb q = 0) by (rewrite (ui_nb _ HU), HE; reflexivity).
  destruct (again_seed init (mkUf g q) (fun i H => H) HG HA HU HK) as [s1 [E1 [G1 [A1 [U1 [K1 [N1 [B1 [T1 [_ O1]]]]]]]]]]; [right; left; auto|]. cbn [uf_g uf_q] in *.
  destruct (again_drain (length (bag (uf_q s1))) fuel s1 [] eq_refl) as [s2 [log [E2 [G2 [A2 [U2 [K2 [B2 [T2 O2]]]]]]]]]; auto.
  { pose proof (ui_nb _ U1). lia. } { intros i Hi. destruct (B1 i Hi) as [K|K]; [exact K|]. rewrite HE in K. destruct K. }
  exists s2, log. split; [unfold ufmm_run; change (s <- foldM seed1 init (mkUf g q) ;; ufmm_loop fuel noGoal s [] = Ok (s2, log)); rewrite E1; exact E2|].
  do 5 (split; [assumption|]). split.
  - intros i Hi. unfold time_is. rewrite T2. exact (T1 i Hi).
  - intros i Hi. rewrite (O2 i Hi). exact (O1 i Hi).
Qed.
End Run.

(** UFMM's clear() deletes the queue (ufmm.hpp:108-111) and is not called here *)
Definition no_clear {N : Num} (o : ufmm_obj (N := N)) : ufmm_obj := o.

Theorem C88_ufmm : forall (N : Num) size (inc : N), repeatable (ufmm_api size inc) no_clear whatever.
Proof.
  intros N size inc. apply (repeat_scheme (ufmm_api size inc) no_clear whatever
    (fun init k o g => k = S (length init) /\ exists q, o = mkUfmmObj (mkSolver GSet true init (Some noGoal)) q /\
       ((init = [] /\ uq_nb q = 0) \/ exists dims, shape_ok dims /\ grid_ok dims g /\ (forall i, In i init -> 0 <= i < box_size dims) /\ around dims shut init g /\
          UI q /\ bag q = [] /\ (uq_size q = size /\ uq_inc q = inc) /\ ((length init <= 1)%nat \/ castok size inc)))).
  - intros m init fuel o g o1 g1 Hm Hp He Hc _. exists (S (length init)). split; [reflexivity|]. cbn in He. inversion He; subst; clear He.
    destruct (first_setup m init Hm Hp) as [dims [Hs [Hg [Hcl [Hi Hset]]]]].
    cbn [a_comp a_pts ufmm_api] in Hc. unfold ufmm_compute, ufmm_setPoints in Hc. cbn [uo_s uo_q] in Hc. unfold ensure_setup in Hc.
    cbn [setInitialAndGoalPoints sv_setup sv_grid new_solver] in Hc.
    apply bind_ok in Hc. destruct Hc as [[sa ga] [Ha Hc]]. apply Hset in Ha. inversion Ha; subst; clear Ha. cbn [goal_of sv_goal bind sv_init] in Hc.
    apply bind_ok in Hc. destruct Hc as [[st log] [Hrun Hc]]. inversion Hc; subst; clear Hc. exists (uf_q st). split; [reflexivity|].
    destruct (Z_lt_le_dec 0 size) as [Hpos|Hneg].
    + right. exists dims. destruct Hs as [H2 Hlt]. destruct (UI_new (N := N) size inc Hpos) as [U0 B0].
      destruct (first_run dims H2 Hlt init Hi size inc fuel _ (uq_new size inc) st log Hcl) as [A [B [C [D [E F]]]]]; [destruct U0 as [? ? ? ?]; constructor; lia|split; reflexivity|reflexivity|exact Hrun|].
      split; [split; assumption|]. auto 10.
    + left. destruct init as [|i init].
      * split; [reflexivity|]. unfold ufmm_run in Hrun. cbn [foldM bind] in Hrun. destruct fuel; cbn in Hrun; inversion Hrun; reflexivity.
      * exfalso. unfold ufmm_run in Hrun. apply bind_ok in Hrun. destruct Hrun as [s1 [H1 _]]. change (foldM (seed1 (N := N)) (i :: init) (mkUf (setClean (clean m) false) (uq_new size inc)) = Ok s1) in H1.
        cbn [foldM] in H1. apply bind_ok in H1. destruct H1 as [s2 [H1 _]]. destruct (seed1_ok dims _ _ _ H1) as [_ [b [_ [Hq _]]]]. cbn [uf_q] in Hq. unfold uq_push in Hq.
        cbn [uq_new uq_empty uq_nb uq_tab uq_size bind] in Hq. assert (E : Z.to_nat size = 0%nat) by lia. rewrite E in Hq. discriminate.
  - intros init k o g f [-> [q [-> HR]]] Hf. cbn [a_comp ufmm_api]. unfold ufmm_compute. cbn [uo_s uo_q]. unfold ensure_setup. cbn [sv_setup bind goal_of sv_goal sv_init].
    destruct HR as [[-> Hz]|[dims [[H2 Hlt] [Hg [Hi [A [U [B [K HC]]]]]]]]].
    + assert (E : ufmm_run f noGoal [] g q = Ok (mkUf g q, [])). { unfold ufmm_run. cbn [foldM bind]. destruct f; cbn [ufmm_loop uf_q]; unfold uq_empty; rewrite Hz; reflexivity. }
      rewrite E. cbn [bind uf_q uf_g]. do 2 eexists. split; [reflexivity|]. split; [split; [intros i []|reflexivity]|]. split; [reflexivity|]. exists q. split; [reflexivity|left; auto].
    + destruct (ufmm_again dims H2 Hlt init Hi size inc f g q ltac:(lia) Hg A U B K HC) as [s [log [E [G' [A' [U' [B' [K' O']]]]]]]]. rewrite E. cbn [bind].
      do 2 eexists. split; [reflexivity|]. split; [exact O'|]. split; [reflexivity|]. exists (uf_q s). split; [reflexivity|]. right. exists dims. split; [split; assumption|]. auto 10.
Qed.
Print Assumptions C88_ufmm.

(** a case: the map of C88_case, two initial points, three calls *)
Example C88_ufmm_case : c88_run (ufmm_api 1000 (nofZ 20)) no_clear c83_a [0; 8] 400 = true.
Proof. vm_compute. reflexivity. Qed.

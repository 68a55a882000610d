(** ExactMore.v - the exact discrete solution depends on the map as travel times should:
    monotonicity, change of units, bounds by routes and by the straight line, the triangle
    inequality, symmetries of the box. *)
From Coq Require Import Reals Lra Permutation.
From Verif Require Import Base BaseFacts NumXR NumLaws Grid GridFacts Spec EikR Solution FMMAbs Relax Exact.
Open Scope Z_scope.

Section One.
Variable dims : list Z.
Hypothesis Hp : proper dims.
Notation US T i := (upwind_sum (somes (dmins dims T i))).

(** an exact solution in terms of [dmins] *)
Lemma ex_at (src fr : Z -> Prop) f X i t : exact_solution dims src fr f X -> X i = Some t -> ~ src i ->
  0 <= i < box_size dims /\ fr i /\ US X i t = (f i * f i)%R.
Proof.
  intros HX Ht Hn. pose proof (ex_range _ _ _ _ _ HX i t Ht) as Hi. split; [exact Hi|].
  apply (ex_eq _ _ _ _ _ HX i t _ Ht Hn). apply dmins_spec; assumption.
Qed.

(** to be a super-solution in terms of [dmins] *)
Lemma super_intro (src fr : Z -> Prop) f (T : time_map) : (forall i, src i -> T i = Some 0%R) ->
  (forall i t, T i = Some t -> 0 <= i < box_size dims) ->
  (forall i t, T i = Some t -> ~ src i -> fr i /\ (f i * f i <= US T i t)%R) -> super_solution dims src fr f T.
Proof.
  intros H1 H2 H3. constructor; [exact H1|]. intros i t ms Ht Hn Hms. rewrite (minima_unique dims T i ms Hp (H2 i t Ht) Hms). auto.
Qed.

(** *** monotonicity *)
Theorem exact_mono (init init' : list Z) (fr fr' : Z -> Prop) f f' X X' :
  (forall i, fr' i -> 0 < f' i)%R ->
  (forall i, In i init -> In i init') -> (forall i, In i init' -> 0 <= i < box_size dims) ->
  (forall i, fr i -> fr' i /\ (0 < f i)%R /\ (f' i <= f i)%R) ->
  exact_solution dims (fun i => In i init) fr f X -> exact_solution dims (fun i => In i init') fr' f' X' ->
  forall i t, X i = Some t -> exists t', X' i = Some t' /\ (t' <= t)%R.
Proof.
  intros Hf' Hs Hr Hff HX HX' i t Ht.
  set (T := fun k => if in_dec Z.eq_dec k init' then Some 0%R else X k).
  assert (HT : forall k s, X k = Some s -> exists s', T k = Some s' /\ (s' <= s)%R).
  { intros k s Hk. unfold T. destruct (in_dec Z.eq_dec k init'); [exists 0%R; split; [reflexivity|apply (ex_nonneg _ _ _ _ _ HX k s Hk)]|exists s; split; [exact Hk|lra]]. }
  destruct (HT i t Ht) as [s [Hs1 Hs2]]. pose proof (ex_range _ _ _ _ _ HX i t Ht) as Hi.
  destruct (exact_below_super dims init' fr' f' Hp Hf' T X' HX') with (i := i) (t := s) as [u [U1 U2]]; [|  |exact Hi|exact Hs1|exists u; split; [exact U1|lra]].
  - apply super_intro.
    + intros k Hk. unfold T. destruct (in_dec Z.eq_dec k init'); [reflexivity|contradiction].
    + intros k r Hk. unfold T in Hk. destruct (in_dec Z.eq_dec k init') as [K|K]; [apply Hr, K|apply (ex_range _ _ _ _ _ HX k r Hk)].
    + intros k r Hk Hn. unfold T in Hk. destruct (in_dec Z.eq_dec k init') as [K|K]; [contradiction|].
      destruct (ex_at _ _ _ _ k r HX Hk (fun H => K (Hs k H))) as [Hk1 [Hk2 Hk3]]. destruct (Hff k Hk2) as [A [B C]]. split; [exact A|].
      pose proof (Hf' k A). apply Rle_trans with (f k * f k)%R; [nra|]. rewrite <- Hk3. apply US_le; [exact Hp|exact Hk1|]. intros j s' _ Hj _. apply HT. exact Hj.
  - intros k r Hk. unfold T in Hk. destruct (in_dec Z.eq_dec k init'); [injection Hk as <-; lra|apply (ex_nonneg _ _ _ _ _ HX k r Hk)].
Qed.

(** *** change of units *)
Lemma US_scale c l u : (0 < c)%R -> upwind_sum (map (Rmult c) l) (c * u)%R = (c * c * upwind_sum l u)%R.
Proof.
  intros Hc. induction l as [|a l IH]; [cbn; lra|]. cbn [map]. rewrite !US_cons, IH.
  replace (c * u - c * a)%R with (c * (u - a))%R by ring. replace (Rmax (c * (u - a)) 0) with (c * Rmax (u - a) 0)%R.
  - unfold Rsqr. ring.
  - rewrite <- RmaxRmult by lra. f_equal. ring.
Qed.
Lemma somes_map {A B} (h : A -> B) (l : list (option A)) : somes (map (option_map h) l) = map h (somes l).
Proof. induction l as [|[x|] l IH]; [reflexivity| |]; cbn; unfold somes in IH; rewrite IH; reflexivity. Qed.
Lemma dim_min_scale c T i d m : (0 < c)%R -> dim_min dims T i d m -> dim_min dims (fun k => option_map (Rmult c) (T k)) i d (option_map (Rmult c) m).
Proof.
  intros Hc. destruct m as [r|]; cbn [dim_min option_map].
  - intros [[j [A B]] C]. split; [exists j; rewrite B; auto|]. intros k s Hk Hs. destruct (T k) as [t|] eqn:E; [|discriminate]. injection Hs as <-.
    specialize (C k t Hk E). apply Rmult_le_compat_l; lra.
  - intros H j Hj. rewrite (H j Hj). reflexivity.
Qed.
Lemma minima_scale c T i ms : (0 < c)%R -> minima dims T i ms -> minima dims (fun k => option_map (Rmult c) (T k)) i (map (option_map (Rmult c)) ms).
Proof. intros Hc H. unfold minima in *. induction H as [|d m ds ms H _ IH]; cbn [map]; constructor; [apply dim_min_scale; assumption|exact IH]. Qed.

Theorem exact_scale c (src fr : Z -> Prop) f X : (0 < c)%R -> exact_solution dims src fr f X ->
  exact_solution dims src fr (fun i => c * f i)%R (fun i => option_map (Rmult c) (X i)).
Proof.
  intros Hc HX. constructor.
  - intros i Hi. rewrite (ex_src _ _ _ _ _ HX i Hi). cbn. f_equal. ring.
  - intros i t ms Ht Hn Hms. destruct (X i) as [x|] eqn:E; [|discriminate]. injection Ht as <-.
    destruct (ex_at _ _ _ _ i x HX E Hn) as [Hi [Hf He]]. split; [exact Hf|].
    rewrite (minima_unique _ _ _ _ Hp Hi Hms).
    rewrite <- (minima_unique _ _ _ _ Hp Hi (minima_scale c X i _ Hc (dmins_spec dims X i Hp Hi))).
    rewrite somes_map, US_scale, He by exact Hc. ring.
  - intros i j Hi Hf Hn Ht Hj. destruct (X i) eqn:E; [discriminate|]. rewrite (ex_inf _ _ _ _ _ HX i j Hi Hf Hn E Hj). reflexivity.
  - intros i t Ht. destruct (X i) as [x|] eqn:E; [|discriminate]. injection Ht as <-. pose proof (ex_nonneg _ _ _ _ _ HX i x E). nra.
  - intros i t Ht. destruct (X i) as [x|] eqn:E; [|discriminate]. apply (ex_range _ _ _ _ _ HX i x E).
Qed.

(** *** routes *)
(** a route from i to k through free cells; its length adds up the cost of every cell entered *)
Inductive route (fr : Z -> Prop) (f : Z -> R) : Z -> Z -> R -> Prop :=
| route_stay i : route fr f i i 0
| route_step i j k l : route fr f i j l -> adjacent dims j k -> fr k -> route fr f i k (l + f k).

Lemma exact_step (src fr : Z -> Prop) f X j k a : (forall i, fr i -> 0 < f i)%R -> (forall i, {src i} + {~ src i}) -> exact_solution dims src fr f X ->
  X j = Some a -> adjacent dims j k -> fr k -> exists b, X k = Some b /\ (b <= a + f k)%R.
Proof.
  intros Hf Hd HX Hj Hjk Hk. assert (Hkj : adjacent dims k j) by (apply adjacent_sym; exact Hjk).
  pose proof (ex_nonneg _ _ _ _ _ HX j a Hj) as Ha. pose proof (Hf k Hk) as Hfk.
  destruct (Hd k) as [S|S]; [exists 0%R; split; [apply (ex_src _ _ _ _ _ HX k S)|lra]|].
  assert (Hkr : 0 <= k < box_size dims) by (destruct Hjk as [cs [ds [_ [B [_ [_ <-]]]]]]; apply cell_number_range; exact B).
  destruct (X k) as [b|] eqn:E; [exists b; split; [reflexivity|]|].
  2:{ rewrite (ex_inf _ _ _ _ _ HX k j Hkr Hk S E Hkj) in Hj. discriminate. }
  destruct (Rle_dec b (a + f k)) as [L|L]; [exact L|exfalso].
  destruct (ex_at _ _ _ _ k b HX E S) as [_ [_ He]].
  assert (Hge : (Rsqr (b - a) <= US X k b)%R).
  { destruct (adjacent_adjacent_in dims k j Hkj) as [d [Hd1 Hd2]].
    pose proof (dmin_spec dims X k d Hp Hkr Hd1) as Hm. destruct (dmin dims X k d) as [m|] eqn:Em; cbn [dim_min] in Hm; [|rewrite (Hm j Hd2) in Hj; discriminate].
    destruct Hm as [_ Hm]. specialize (Hm j a Hd2 Hj).
    assert (Hin : In m (somes (dmins dims X k))) by (apply in_somes, in_dmins; exists d; split; [exact Hd1|symmetry; exact Em]).
    assert (Hone : (Rsqr (Rmax (b - m) 0) <= US X k b)%R).
    { revert Hin. generalize (somes (dmins dims X k)). intros l. induction l as [|x l IH]; [intros []|]. intros [->|H]; rewrite US_cons.
      - pose proof (US_nonneg l b). lra.
      - specialize (IH H). pose proof (Rle_0_sqr (Rmax (b - x) 0)). lra. }
    eapply Rle_trans; [|exact Hone]. rewrite Rmax_left by lra. apply Rsqr_incr_1; lra. }
  rewrite He in Hge. unfold Rsqr in Hge. nra.
Qed.

Theorem exact_below_route (src fr : Z -> Prop) f X i k l : (forall i, fr i -> 0 < f i)%R -> (forall i, {src i} + {~ src i}) -> exact_solution dims src fr f X ->
  route fr f i k l -> forall a, X i = Some a -> exists x, X k = Some x /\ (x <= a + l)%R.
Proof.
  intros Hf Hd HX H. induction H as [i|i j k l H IH Hjk Hk]; intros a Ha; [exists a; split; [exact Ha|lra]|].
  destruct (IH a Ha) as [x [Hx Hl]]. destruct (exact_step src fr f X j k x Hf Hd HX Hx Hjk Hk) as [b [Hb Hl2]]. exists b. split; [exact Hb|lra].
Qed.

(** *** the triangle inequality *)
Theorem exact_triangle (a b : Z) (fr : Z -> Prop) f Xa Xb t1 t2 c : (forall i, fr i -> 0 < f i)%R -> 0 <= a < box_size dims ->
  exact_solution dims (fun i => In i [a]) fr f Xa -> exact_solution dims (fun i => In i [b]) fr f Xb ->
  Xa b = Some t1 -> Xb c = Some t2 -> exists t, Xa c = Some t /\ (t <= t1 + t2)%R.
Proof.
  intros Hf Har HA HB H1 H2. pose proof (ex_nonneg _ _ _ _ _ HA b t1 H1) as Ht1.
  set (T := fun k => match Xb k, Xa k with Some v, Some u => Some (Rmin u (t1 + v)) | Some v, None => Some (t1 + v)%R | None, o => o end).
  assert (TA : forall k u, Xa k = Some u -> exists s, T k = Some s /\ (s <= u)%R).
  { intros k u Hk. unfold T. rewrite Hk. destruct (Xb k) as [v|]; eexists; (split; [reflexivity|]); [apply Rmin_l|lra]. }
  assert (TB : forall k v, Xb k = Some v -> exists s, T k = Some s /\ (s <= t1 + v)%R).
  { intros k v Hk. unfold T. rewrite Hk. destruct (Xa k) as [u|]; eexists; (split; [reflexivity|]); [apply Rmin_r|lra]. }
  assert (TC : forall k s, T k = Some s -> Xa k = Some s \/ (exists v, Xb k = Some v /\ s = (t1 + v)%R)).
  { intros k s Hk. unfold T in Hk. destruct (Xb k) as [v|], (Xa k) as [u|]; try discriminate; [|right|left; exact Hk].
    - injection Hk as <-. unfold Rmin. destruct (Rle_dec u (t1 + v)); [left; reflexivity|right; eauto].
    - injection Hk as <-. eauto. }
  destruct (TB c t2 H2) as [s [Hs Hle]].
  assert (Hc : 0 <= c < box_size dims) by apply (ex_range _ _ _ _ _ HB c t2 H2).
  destruct (exact_below_super dims [a] fr f Hp Hf T Xa HA) with (i := c) (t := s) as [u [U1 U2]]; [| |exact Hc|exact Hs|exists u; split; [exact U1|lra]].
  - apply super_intro.
    + intros k Hk. pose proof (ex_src _ _ _ _ _ HA k Hk) as E. destruct (TA k 0%R E) as [s0 [E0 L0]]. rewrite E0. f_equal.
      destruct (TC k s0 E0) as [K|[v [K ->]]]; [congruence|]. pose proof (ex_nonneg _ _ _ _ _ HB k v K). lra.
    + intros k r Hk. destruct (TC k r Hk) as [K|[v [K _]]]; [apply (ex_range _ _ _ _ _ HA k r K)|apply (ex_range _ _ _ _ _ HB k v K)].
    + intros k r Hk Hn.
      assert (Case1 : forall r', Xa k = Some r' -> T k = Some r' -> fr k /\ (f k * f k <= US T k r')%R).
      { intros r' K _. destruct (ex_at _ _ _ _ k r' HA K Hn) as [E1 [E2 E3]]. split; [exact E2|]. rewrite <- E3. apply US_le; [exact Hp|exact E1|]. intros j s' _ Hj _. apply TA. exact Hj. }
      destruct (TC k r Hk) as [K|[v [K ->]]]; [apply Case1; assumption|].
      destruct (Z.eq_dec k b) as [->|Hkb].
      * assert (v = 0)%R by (pose proof (ex_src _ _ _ _ _ HB b (or_introl eq_refl)); congruence). subst v. apply Case1; [rewrite H1; f_equal; lra|exact Hk].
      * destruct (ex_at _ _ _ _ k v HB K) as [E1 [E2 E3]]; [intros [E|[]]; congruence|]. split; [exact E2|]. rewrite <- E3.
        replace (US Xb k v) with (US (fun i => option_map (Rplus t1) (Xb i)) k (t1 + v)%R).
        { apply US_le; [exact Hp|exact E1|]. intros j s' _ Hj _. destruct (Xb j) as [w|] eqn:Ew; [|discriminate]. injection Hj as <-. apply TB. exact Ew. }
        assert (Em : dmins dims (fun i => option_map (Rplus t1) (Xb i)) k = map (option_map (Rplus t1)) (dmins dims Xb k)).
        { symmetry. apply (minima_unique _ _ _ _ Hp E1). pose proof (dmins_spec dims Xb k Hp E1) as Hm. unfold minima in *. clear - Hm.
          induction Hm as [|d m ds ms H _ IH]; cbn [map]; constructor; [|exact IH]. destruct m as [x|]; cbn [dim_min option_map] in *.
          - destruct H as [[j [A B]] C]. split; [exists j; rewrite B; auto|]. intros q s' Hq Hs'. destruct (Xb q) as [w|] eqn:E; [|discriminate]. injection Hs' as <-. specialize (C q w Hq E). lra.
          - intros j Hj. rewrite (H j Hj). reflexivity. }
        rewrite Em, somes_map. generalize (somes (dmins dims Xb k)). intros l. induction l as [|x l IH]; [reflexivity|]. cbn [map]. rewrite !US_cons, IH. replace (t1 + v - (t1 + x))%R with (v - x)%R by ring. reflexivity.
  - intros k r Hk. destruct (TC k r Hk) as [K|[v [K ->]]]; [apply (ex_nonneg _ _ _ _ _ HA k r K)|]. pose proof (ex_nonneg _ _ _ _ _ HB k v K). lra.
Qed.
End One.

(** *** the straight line *)
Fixpoint sqdist (cs ds : list Z) : R :=
  match cs, ds with c :: cr, d :: dr => ((IZR c - IZR d) * (IZR c - IZR d) + sqdist cr dr)%R | _, _ => 0%R end.

Lemma sqdist_nonneg cs : forall ds, (0 <= sqdist cs ds)%R.
Proof. induction cs as [|c cs IH]; intros [|d ds]; cbn; try lra. specialize (IH ds). pose proof (Rle_0_sqr (IZR c - IZR d)) as Q. unfold Rsqr in Q. lra. Qed.
Lemma sqdist_zero cs : forall ds, length cs = length ds -> sqdist cs ds = 0%R -> cs = ds.
Proof.
  induction cs as [|c cs IH]; intros [|d ds] Hl H; try discriminate; [reflexivity|]. cbn in H, Hl. pose proof (sqdist_nonneg cs ds).
  pose proof (Rle_0_sqr (IZR c - IZR d)) as Q. unfold Rsqr in Q. assert (IZR c - IZR d = 0)%R by (apply Rsqr_0_uniq; unfold Rsqr; lra). assert (c = d) by (apply eq_IZR; lra). subst. f_equal. apply IH; [lia|lra].
Qed.
Lemma sqdist_same cs : sqdist cs cs = 0%R.
Proof. induction cs as [|c cs IH]; [reflexivity|]. cbn. rewrite IH. ring. Qed.

Definition apart (d : nat) (cs ds : list Z) : R := Rabs (IZR (nth d cs 0) - IZR (nth d ds 0)).

Lemma sqdist_sum cs : forall ds, length cs = length ds ->
  Rsum (map (fun d => apart d cs ds * apart d cs ds)%R (seq 0 (length cs))) = sqdist cs ds.
Proof.
  induction cs as [|c cs IH]; intros [|d ds] Hl; try discriminate; [reflexivity|]. cbn [length seq map sqdist].
  change (Rsum (?a :: ?b)) with (a + Rsum b)%R. rewrite <- seq_shift, map_map. cbn in Hl. rewrite <- (IH ds) by lia. f_equal.
  unfold apart. cbn [nth]. rewrite <- Rabs_mult. rewrite Rabs_pos_eq by (apply Rle_0_sqr). ring.
Qed.

Lemma sqdist_apart d cs : forall ds, length cs = length ds -> (apart d cs ds * apart d cs ds <= sqdist cs ds)%R.
Proof.
  revert d. induction cs as [|c cs IH]; intros d [|e ds] Hl; try discriminate.
  - unfold apart. destruct d; cbn; rewrite Rminus_diag_eq, Rabs_R0 by reflexivity; lra.
  - cbn in Hl. destruct d as [|d].
    + unfold apart. cbn [nth sqdist]. rewrite <- Rabs_mult. rewrite Rabs_pos_eq by (apply Rle_0_sqr). pose proof (sqdist_nonneg cs ds). lra.
    + change (apart (S d) (c :: cs) (e :: ds)) with (apart d cs ds). specialize (IH d ds ltac:(lia)). cbn [sqdist]. pose proof (Rle_0_sqr (IZR c - IZR e)) as Q. unfold Rsqr in Q. lra.
Qed.

Lemma sqdist_step d cs ds : unit_step_at d cs ds -> forall ss, length cs = length ss ->
  (sqdist cs ss - 2 * apart d cs ss + 1 <= sqdist ds ss)%R.
Proof.
  intros H. induction H as [c d r H|n c r s H IH]; intros [|e ss] Hl; try discriminate.
  - unfold apart. cbn [nth sqdist]. generalize (sqdist r ss). intros q. destruct H as [-> | ->]; rewrite plus_IZR; generalize (IZR e); [generalize (IZR c)|generalize (IZR d)]; intros x y; unfold Rabs; destruct (Rcase_abs _); nra.
  - cbn in Hl. specialize (IH ss ltac:(lia)). change (apart (S n) (c :: r) (e :: ss)) with (apart n r ss). cbn [sqdist]. lra.
Qed.

Lemma sqrt_above x y : (0 <= y)%R -> (x * x <= y)%R -> (x <= sqrt y)%R.
Proof.
  intros Hy H. destruct (Rle_dec x 0) as [L|L]; [pose proof (sqrt_pos y); lra|].
  rewrite <- (sqrt_square x) by lra. apply sqrt_le_1; nra.
Qed.

Lemma nearer d cs ds ss : unit_step_at d cs ds -> length cs = length ss -> (0 < sqdist cs ss)%R ->
  (sqrt (sqdist cs ss) - apart d cs ss / sqrt (sqdist cs ss) <= sqrt (sqdist ds ss))%R.
Proof.
  intros H Hl HD. pose proof (sqdist_step d cs ds H ss Hl) as K. pose proof (sqdist_apart d cs ss Hl) as A.
  assert (HA : (0 <= apart d cs ss)%R) by apply Rabs_pos.
  set (r := sqrt (sqdist cs ss)). assert (Hr : (0 < r)%R) by (apply sqrt_lt_R0; exact HD).
  assert (Hrr : (r * r = sqdist cs ss)%R) by (apply sqrt_sqrt; lra). set (a := apart d cs ss) in *.
  apply sqrt_above; [apply sqdist_nonneg|].
  replace ((r - a / r) * (r - a / r))%R with (r * r - 2 * a + (a * a) / (r * r))%R by (field; lra).
  assert ((a * a) / (r * r) <= 1)%R; [|lra]. apply Rmult_le_reg_r with (r * r)%R; [nra|]. unfold Rdiv. rewrite Rmult_assoc, Rinv_l by nra. lra.
Qed.

(** the exact time is at least that of the straight line at the fastest speed of the map *)
Theorem exact_above_line dims (fr : Z -> Prop) f fmin X ss cs t : proper dims -> (0 < fmin)%R -> (forall i, fr i -> fmin <= f i)%R ->
  in_box dims ss -> in_box dims cs -> exact_solution dims (fun i => In i [cell_number dims ss]) fr f X ->
  X (cell_number dims cs) = Some t -> (fmin * sqrt (sqdist cs ss) <= t)%R.
Proof.
  intros Hp Hf Hff Hss Hcs HX Ht.
  assert (Hlen : forall l, in_box dims l -> length l = length ss).
  { intros l Hl. rewrite <- (in_box_length _ _ Hl). apply (in_box_length _ _ Hss). }
  set (h := fun i => (fmin * sqrt (sqdist (coords_of dims i) ss))%R).
  set (U := fun i => if (0 <=? i) && (i <? box_size dims) then Some (h i) else None).
  assert (HU : forall i, 0 <= i < box_size dims -> U i = Some (h i)).
  { intros i Hi. unfold U. destruct (Z.leb_spec 0 i); [|lia]. destruct (Z.ltb_spec i (box_size dims)); [reflexivity|lia]. }
  assert (Hco : forall l, in_box dims l -> coords_of dims (cell_number dims l) = l).
  { intros l Hl. pose proof (cell_number_range dims l Hl) as Hr. apply (cell_number_inj dims); [apply coords_of_in_box; assumption|exact Hl|]. apply cell_number_coords_of; assumption. }
  assert (Hpos : forall i, fr i -> (0 < f i)%R) by (intros i Hi; specialize (Hff i Hi); lra).
  assert (Hdec : forall i, {In i [cell_number dims ss]} + {~ In i [cell_number dims ss]}) by (intros; apply in_dec, Z.eq_dec).
  assert (Sub : forall delta, (0 < delta)%R -> sub_solution dims (fun i => In i [cell_number dims ss]) fr f delta U).
  { intros delta Hd. constructor.
    - intros i [<-|[]]. pose proof (cell_number_range dims ss Hss). rewrite HU by assumption. unfold h. rewrite Hco by exact Hss. rewrite sqdist_same, sqrt_0. f_equal. ring.
    - intros i u ms Hi Hfi Hns Hu Hms. rewrite HU in Hu by exact Hi. injection Hu as <-. rewrite (minima_unique dims U i ms Hp Hi Hms).
      set (xs := coords_of dims i). assert (Hxs : in_box dims xs) by (apply coords_of_in_box; assumption).
      assert (Ei : cell_number dims xs = i) by (apply cell_number_coords_of; assumption).
      assert (HD : (0 < sqdist xs ss)%R).
      { destruct (sqdist_nonneg xs ss) as [L|L]; [exact L|exfalso]. apply Hns. left. rewrite <- Ei. f_equal. symmetry. apply sqdist_zero; [apply Hlen; exact Hxs|symmetry; exact L]. }
      set (r := sqrt (sqdist xs ss)). assert (Hr : (0 < r)%R) by (apply sqrt_lt_R0; exact HD). assert (Hrr : (r * r = sqdist xs ss)%R) by (apply sqrt_sqrt; lra).
      assert (Bound : (upwind_sum (somes (dmins dims U i)) (h i) <= fmin * fmin)%R).
      { rewrite US_somes. unfold dmins. apply Rle_trans with (Rsum (map (fun d => (fmin * fmin / (r * r)) * (apart d xs ss * apart d xs ss))%R (seq 0 (length xs)))).
        - rewrite <- (in_box_length _ _ Hxs). rewrite map_map.
          assert (G : forall l, (forall d, In d l -> (d < length dims)%nat) ->
            (Rsum (map (fun d => contr (h i) (dmin dims U i d)) l) <= Rsum (map (fun d => (fmin * fmin / (r * r)) * (apart d xs ss * apart d xs ss)) l))%R).
          { induction l as [|d l IH]; intros Hl; [cbn; lra|]. cbn [map]. change (Rsum (?a :: ?b)) with (a + Rsum b)%R. apply Rplus_le_compat; [|apply IH; intros; apply Hl; right; assumption].
            specialize (Hl d (or_introl eq_refl)). clear IH. pose proof (dmin_spec dims U i d Hp Hi Hl) as Hm. set (a := apart d xs ss). assert (Ha : (0 <= a)%R) by apply Rabs_pos.
            replace (fmin * fmin / (r * r) * (a * a))%R with (Rsqr (fmin * a / r)) by (unfold Rsqr; field; lra).
            destruct (dmin dims U i d) as [m|]; cbn [dim_min contr] in *; [|apply Rle_0_sqr].
            destruct Hm as [[j [[c1 [c2 [J1 [J2 [J3 [J4 J5]]]]]] Hj]] _]. assert (c1 = xs) by (unfold xs; rewrite <- J4; symmetry; apply Hco; exact J1). subst c1.
            rewrite HU in Hj by (rewrite <- J5; apply cell_number_range; exact J2). injection Hj as <-. unfold h. fold xs. fold r. rewrite <- J5, (Hco c2 J2).
            pose proof (nearer d xs c2 ss J3 (Hlen _ Hxs) HD) as N. fold r in N. fold a in N.
            assert (Hq : (0 <= fmin * a / r)%R) by (unfold Rdiv; apply Rmult_le_pos; [nra|left; apply Rinv_0_lt_compat; exact Hr]).
            apply Rsqr_incr_1; [|apply Rmax_r|exact Hq]. apply Rmax_lub; [|exact Hq].
            replace (fmin * a / r)%R with (fmin * (a / r))%R by (unfold Rdiv; ring). nra. }
          apply G. intros d Hd'. apply in_seq in Hd'. lia.
        - assert (G : forall (q : R) l (w : nat -> R), Rsum (map (fun d => q * w d)%R l) = (q * Rsum (map w l))%R).
          { intros q l w. induction l as [|d l IH]; [cbn; lra|]. cbn [map]. change (Rsum (?a :: ?b)) with (a + Rsum b)%R. rewrite IH. ring. }
          rewrite G, (sqdist_sum xs ss (Hlen _ Hxs)), <- Hrr. right. field. lra. }
      specialize (Hff i Hfi). fold h. destruct (Rle_dec (upwind_sum (somes (dmins dims U i)) (h i)) 0) as [L|L].
      + pose proof (US_mono (somes (dmins dims U i)) (h i - delta) (h i) ltac:(lra)). nra.
      + pose proof (US_strict (somes (dmins dims U i)) (h i - delta) (h i) ltac:(lra) ltac:(lra)). nra.
    - intros i j Hi _ _ Hn. rewrite HU in Hn by exact Hi. discriminate. }
  pose proof (cell_number_range dims cs Hcs) as Hi.
  pose proof (exact_solution_delta dims [cell_number dims ss] fr f Hpos X 1 ltac:(lra) HX) as [SX [_ NX]].
  apply (le_all_eps _ _ (INR (rank (Z.to_nat (box_size dims)) X (cell_number dims cs)))); [apply pos_INR|].
  intros d Hd. destruct (comparison dims _ fr f Hp Hpos Hdec d X U ltac:(lra) NX SX (Sub d Hd) _ t Hi Ht) as [u [Hu Hle]].
  rewrite HU in Hu by exact Hi. injection Hu as <-. unfold h in Hle. rewrite Hco in Hle by exact Hcs. exact Hle.
Qed.

(** *** symmetries of the box *)
(** the mirror image along dimension k *)
Fixpoint mirror (k : nat) (dims cs : list Z) {struct dims} : list Z :=
  match dims, cs with
  | n :: ns, c :: r => match k with O => (n - 1 - c) :: r | S k => c :: mirror k ns r end
  | _, _ => cs
  end.
(** axes k and k+1 exchanged *)
Fixpoint exchange (k : nat) (l : list Z) {struct l} : list Z :=
  match l with
  | [] => []
  | a :: r => match k with O => match r with b :: r' => b :: a :: r' | [] => l end | S k => a :: exchange k r end
  end.
(** every combination of these: mirror images, rotations, transpositions *)
Inductive symmetry (dims : list Z) : list Z -> (list Z -> list Z) -> Prop :=
| sym_same : symmetry dims dims (fun c => c)
| sym_mirror k dims' phi : symmetry dims dims' phi -> symmetry dims dims' (fun c => mirror k dims' (phi c))
| sym_exchange k dims' phi : symmetry dims dims' phi -> (S k < length dims')%nat -> symmetry dims (exchange k dims') (fun c => exchange k (phi c)).

Lemma mirror_box k : forall dims cs, in_box dims cs -> in_box dims (mirror k dims cs).
Proof.
  induction k as [|k IH]; intros [|n ns] cs H; inversion H as [|? c ? r Hc Hr]; subst; cbn; constructor; auto; [lia|]. apply IH. exact Hr.
Qed.
Lemma mirror_mirror k : forall dims cs, mirror k dims (mirror k dims cs) = cs.
Proof.
  induction k as [|k IH]; intros [|n ns] [|c r]; cbn; try reflexivity; f_equal; [lia|]. apply IH.
Qed.
Lemma mirror_step k d : forall dims cs ds, unit_step_at d cs ds -> unit_step_at d (mirror k dims cs) (mirror k dims ds).
Proof.
  intros dims cs ds H. revert k dims. induction H as [c d r H|n c r s H IH]; intros k [|n' ns].
  - cbn. constructor. exact H.
  - destruct k; cbn; constructor; lia.
  - cbn. constructor. exact H.
  - destruct k; cbn; constructor; [exact H|apply IH].
Qed.

Fixpoint sw (k d : nat) : nat :=
  match k, d with
  | O, O => 1%nat | O, S O => O | O, d => d
  | S k, O => O | S k, S d => S (sw k d)
  end.
Lemma sw_sw k : forall d, sw k (sw k d) = d.
Proof. induction k as [|k IH]; intros [|[|d]]; cbn; try reflexivity; f_equal; apply IH. Qed.
Lemma sw_lt k : forall d n, (S k < n)%nat -> (d < n)%nat -> (sw k d < n)%nat.
Proof. induction k as [|k IH]; intros [|[|d]] [|n] H1 H2; cbn; try lia; apply -> Nat.succ_lt_mono; apply IH; lia. Qed.
Lemma sw_perm k n : (S k < n)%nat -> Permutation (map (sw k) (seq 0 n)) (seq 0 n).
Proof.
  intros H. apply NoDup_Permutation.
  - apply FinFun.Injective_map_NoDup; [|apply seq_NoDup]. intros a b E. rewrite <- (sw_sw k a), E. apply sw_sw.
  - apply seq_NoDup.
  - intros x. rewrite in_map_iff, in_seq. split.
    + intros [y [<- Hy]]. apply in_seq in Hy. pose proof (sw_lt k y n H ltac:(lia)). lia.
    + intros Hx. exists (sw k x). split; [apply sw_sw|]. apply in_seq. pose proof (sw_lt k x n H ltac:(lia)). lia.
Qed.
Lemma exchange_exchange k : forall l, exchange k (exchange k l) = l.
Proof. induction k as [|k IH]; intros [|a [|b l]]; cbn; try reflexivity; f_equal; apply (IH (b :: l)). Qed.
Lemma exchange_box k : forall dims cs, in_box dims cs -> in_box (exchange k dims) (exchange k cs).
Proof.
  induction k as [|k IH]; intros dims cs H; inversion H as [|n c ns r Hc Hr]; subst; cbn; [constructor| |constructor|constructor; [exact Hc|apply IH; exact Hr]].
  inversion Hr as [|n' c' ns' r' Hc' Hr']; subst; constructor; [exact Hc|constructor|exact Hc'|constructor; assumption].
Qed.
Lemma exchange_length k : forall l, length (exchange k l) = length l.
Proof. induction k as [|k IH]; intros [|a [|b l]]; cbn; try reflexivity. f_equal. apply (IH (b :: l)). Qed.
Lemma exchange_step k d cs ds : unit_step_at d cs ds -> (S k < length cs)%nat -> unit_step_at (sw k d) (exchange k cs) (exchange k ds).
Proof.
  intros H. revert k. induction H as [c d r H|n c r s H IH]; intros k Hk; cbn [length] in Hk.
  - destruct k as [|k].
    + destruct r as [|b r]; [cbn in Hk; lia|]. cbn. constructor. constructor. exact H.
    + cbn [exchange sw]. constructor. exact H.
  - destruct k as [|k].
    + inversion H as [c' d' r' H'|n' c' r' s' H']; subst; cbn; [constructor; exact H'|constructor; constructor; exact H'].
    + cbn [exchange sw]. constructor. apply IH. lia.
Qed.
Lemma exchange_size k : forall l, box_size (exchange k l) = box_size l.
Proof.
  induction k as [|k IH]; intros [|a l]; try reflexivity.
  - destruct l as [|b l]; [reflexivity|]. cbn [exchange]. rewrite !box_size_cons. ring.
  - change (exchange (S k) (a :: l)) with (a :: exchange k l). rewrite !box_size_cons, IH. reflexivity.
Qed.
Lemma exchange_proper k : forall l, proper l -> proper (exchange k l).
Proof.
  induction k as [|k IH]; intros [|a r] H; try exact H; inversion H as [|? ? Ha Hr]; subst.
  - destruct r as [|b r]; [exact H|]. inversion Hr; subst. cbn [exchange]. repeat (constructor; [assumption|]). assumption.
  - change (exchange (S k) (a :: r)) with (a :: exchange k r). constructor; [exact Ha|]. apply IH. exact Hr.
Qed.

Record sym_facts (dims dims' : list Z) (phi : list Z -> list Z) : Prop := {
  sf_proper : proper dims'; sf_len : length dims' = length dims; sf_size : box_size dims' = box_size dims;
  sf_box : forall cs, in_box dims cs -> in_box dims' (phi cs);
  sf_surj : forall ds, in_box dims' ds -> exists cs, in_box dims cs /\ phi cs = ds;
  sf_inj : forall cs ds, in_box dims cs -> in_box dims ds -> phi cs = phi ds -> cs = ds;
  sf_step : exists p : nat -> nat, Permutation (map p (seq 0 (length dims))) (seq 0 (length dims)) /\
    forall d cs ds, in_box dims cs -> in_box dims ds -> (unit_step_at d cs ds <-> unit_step_at (p d) (phi cs) (phi ds))
}.
Theorem symmetry_facts dims dims' phi : proper dims -> symmetry dims dims' phi -> sym_facts dims dims' phi.
Proof.
  intros Hp H. induction H as [|k dims' phi H IH|k dims' phi H IH Hk].
  - constructor; auto; [eauto|]. exists (fun d => d). rewrite map_id. split; [reflexivity|]. tauto.
  - destruct IH as [A B C D E F [p [G1 G2]]]. constructor; auto.
    + intros cs Hcs. apply mirror_box. auto.
    + intros ds Hds. destruct (E _ (mirror_box k _ _ Hds)) as [cs [H1 H2]]. exists cs. split; [exact H1|]. rewrite H2. apply mirror_mirror.
    + intros cs ds H1 H2 H3. apply F; auto. apply (f_equal (mirror k dims')) in H3. rewrite !mirror_mirror in H3. exact H3.
    + exists p. split; [exact G1|]. intros d cs ds H1 H2. rewrite (G2 d cs ds H1 H2). split; [apply mirror_step|].
      intros H3. apply (mirror_step k _ dims') in H3. rewrite !mirror_mirror in H3. exact H3.
  - destruct IH as [A B C D E F [p [G1 G2]]]. constructor.
    + apply exchange_proper. exact A.
    + rewrite exchange_length. exact B.
    + rewrite exchange_size. exact C.
    + intros cs Hcs. apply exchange_box. auto.
    + intros ds Hds. apply (exchange_box k) in Hds. rewrite exchange_exchange in Hds. destruct (E _ Hds) as [cs [H1 H2]]. exists cs. split; [exact H1|]. rewrite H2. apply exchange_exchange.
    + intros cs ds H1 H2 H3. apply F; auto. apply (f_equal (exchange k)) in H3. rewrite !exchange_exchange in H3. exact H3.
    + exists (fun d => sw k (p d)). split.
      * rewrite <- map_map. rewrite G1. apply sw_perm. lia.
      * intros d cs ds H1 H2. rewrite (G2 d cs ds H1 H2). split; intros H3.
        -- apply exchange_step; [exact H3|]. rewrite <- (in_box_length _ _ (D cs H1)). exact Hk.
        -- apply (exchange_step k) in H3; [|rewrite exchange_length, <- (in_box_length _ _ (D cs H1)); exact Hk]. rewrite !exchange_exchange, sw_sw in H3. exact H3.
Qed.

(** the exact solution of the image of a problem is the image of the exact solution *)
Theorem exact_image dims dims' phi (init init' : list Z) (fr fr' : Z -> Prop) f f' X X' : proper dims -> symmetry dims dims' phi ->
  (forall i, fr i -> 0 < f i)%R -> (forall i, In i init -> 0 <= i < box_size dims) ->
  (forall cs, in_box dims cs -> let i := cell_number dims cs in let j := cell_number dims' (phi cs) in
     (In i init <-> In j init') /\ (fr i <-> fr' j) /\ f' j = f i) ->
  exact_solution dims (fun i => In i init) fr f X -> exact_solution dims' (fun i => In i init') fr' f' X' ->
  forall cs, in_box dims cs -> X' (cell_number dims' (phi cs)) = X (cell_number dims cs).
Proof.
  intros Hp Hs Hf Hr Him HX HX'. destruct (symmetry_facts dims dims' phi Hp Hs) as [A B C D E F [p [G1 G2]]].
  set (sg := fun i => cell_number dims' (phi (coords_of dims i))).
  set (Y := fun i => if (0 <=? i) && (i <? box_size dims) then X' (sg i) else None).
  assert (HY : forall i, 0 <= i < box_size dims -> Y i = X' (sg i)).
  { intros i Hi. unfold Y. destruct (Z.leb_spec 0 i); [|lia]. destruct (Z.ltb_spec i (box_size dims)); [reflexivity|lia]. }
  assert (Hco : forall l, in_box dims l -> coords_of dims (cell_number dims l) = l).
  { intros l Hl. pose proof (cell_number_range dims l Hl). apply (cell_number_inj dims); [apply coords_of_in_box; assumption|exact Hl|]. apply cell_number_coords_of; assumption. }
  assert (Hb : forall i, 0 <= i < box_size dims -> in_box dims (coords_of dims i)) by (intros; apply coords_of_in_box; assumption).
  assert (Hn : forall i, 0 <= i < box_size dims -> cell_number dims (coords_of dims i) = i) by (intros; apply cell_number_coords_of; assumption).
  assert (Hsg : forall i, 0 <= i < box_size dims -> (In i init <-> In (sg i) init') /\ (fr i <-> fr' (sg i)) /\ f' (sg i) = f i).
  { intros i Hi. specialize (Him _ (Hb i Hi)). cbv zeta in Him. rewrite (Hn i Hi) in Him. exact Him. }
  assert (Hrange : forall i t, Y i = Some t -> 0 <= i < box_size dims).
  { intros i t H. unfold Y in H. destruct (Z.leb_spec 0 i); [|discriminate]. destruct (Z.ltb_spec i (box_size dims)); [|discriminate]. lia. }
  assert (Hadj : forall d i j, 0 <= i < box_size dims -> 0 <= j < box_size dims -> (adjacent_in dims d i j <-> adjacent_in dims' (p d) (sg i) (sg j))).
  { intros d i j Hi Hj. split.
    - intros [cs [ds [H1 [H2 [H3 [H4 H5]]]]]]. subst i j. unfold sg. rewrite !Hco by assumption. exists (phi cs), (phi ds). split; [auto|]. split; [auto|]. split; [apply (G2 d cs ds H1 H2); exact H3|auto].
    - intros [cs [ds [H1 [H2 [H3 [H4 H5]]]]]]. apply cell_number_inj in H4; [|exact H1|apply D, Hb, Hi]. apply cell_number_inj in H5; [|exact H2|apply D, Hb, Hj]. subst cs ds.
      exists (coords_of dims i), (coords_of dims j). split; [auto|]. split; [auto|]. split; [apply (G2 d _ _ (Hb i Hi) (Hb j Hj)); exact H3|auto]. }
  assert (Hsurj : forall j', 0 <= j' < box_size dims' -> exists j, 0 <= j < box_size dims /\ sg j = j').
  { intros j' Hj. destruct (E _ (coords_of_in_box dims' j' A Hj)) as [cs [H1 H2]]. exists (cell_number dims cs). split; [apply cell_number_range; exact H1|].
    unfold sg. rewrite (Hco cs H1), H2. apply cell_number_coords_of; assumption. }
  assert (Hsgr : forall i, 0 <= i < box_size dims -> 0 <= sg i < box_size dims') by (intros i Hi; apply cell_number_range, D, Hb, Hi).
  assert (Hadjr : forall d i j, adjacent_in dims d i j -> 0 <= j < box_size dims) by (intros d i j [cs [ds [_ [H2 [_ [_ <-]]]]]]; apply cell_number_range; exact H2).
  assert (Hadjr' : forall d i j, adjacent_in dims' d i j -> 0 <= j < box_size dims') by (intros d i j [cs [ds [_ [H2 [_ [_ <-]]]]]]; apply cell_number_range; exact H2).
  assert (Hmin : forall i, 0 <= i < box_size dims -> Permutation (dmins dims Y i) (dmins dims' X' (sg i))).
  { intros i Hi.
    assert (Ems : dmins dims Y i = map (fun d => dmin dims' X' (sg i) (p d)) (seq 0 (length dims))).
    { symmetry. apply (minima_unique dims Y i _ Hp Hi). unfold minima.
      assert (G : forall l, (forall d, In d l -> (d < length dims)%nat) -> Forall2 (dim_min dims Y i) l (map (fun d => dmin dims' X' (sg i) (p d)) l)).
      { induction l as [|d l IH]; intros Hl; cbn [map]; constructor; [|apply IH; intros; apply Hl; right; assumption].
        specialize (Hl d (or_introl eq_refl)).
        assert (Hpd : (p d < length dims')%nat).
        { rewrite B. assert (K : In (p d) (seq 0 (length dims))) by (eapply Permutation_in; [exact G1|]; apply in_map, in_seq; lia). apply in_seq in K. lia. }
        pose proof (dmin_spec dims' X' (sg i) (p d) A (Hsgr i Hi) Hpd) as Hm. destruct (dmin dims' X' (sg i) (p d)) as [m|]; cbn [dim_min] in *.
        - destruct Hm as [[j' [J1 J2]] J3]. split.
          + destruct (Hsurj j' (Hadjr' _ _ _ J1)) as [j [Hj <-]]. exists j. split; [apply Hadj; assumption|]. rewrite HY by exact Hj. exact J2.
          + intros j s Hj1 Hj2. pose proof (Hadjr _ _ _ Hj1) as Hj. rewrite HY in Hj2 by exact Hj. apply (J3 (sg j) s); [apply Hadj; assumption|exact Hj2].
        - intros j Hj1. pose proof (Hadjr _ _ _ Hj1) as Hj. rewrite HY by exact Hj. apply Hm. apply Hadj; assumption. }
      apply G. intros d Hd. apply in_seq in Hd. lia. }
    rewrite Ems, <- (map_map p). unfold dmins. rewrite B. apply Permutation_map. exact G1. }
  assert (HUS : forall i u, 0 <= i < box_size dims -> upwind_sum (somes (dmins dims Y i)) u = upwind_sum (somes (dmins dims' X' (sg i))) u).
  { intros i u Hi. apply US_perm. unfold somes. apply Permutation_flat_map. apply Hmin. exact Hi. }
  assert (HYe : exact_solution dims (fun i => In i init) fr f Y).
  { constructor.
    - intros i Hi. rewrite HY by auto. apply (ex_src _ _ _ _ _ HX'). apply (Hsg i); auto.
    - intros i t ms Ht Hni Hms. pose proof (Hrange i t Ht) as Hi. rewrite (minima_unique dims Y i ms Hp Hi Hms), HUS by exact Hi. rewrite HY in Ht by exact Hi.
      destruct (Hsg i Hi) as [S1 [S2 S3]]. destruct (ex_at dims' A _ _ _ _ (sg i) t HX' Ht) as [_ [K1 K2]]; [tauto|]. split; [tauto|]. rewrite K2, S3. reflexivity.
    - intros i j Hi Hfi Hni Hn' Hj. rewrite HY in Hn' by exact Hi. destruct (Hsg i Hi) as [S1 [S2 S3]].
      destruct (adjacent_adjacent_in dims i j Hj) as [d [_ Hd]]. pose proof (Hadjr _ _ _ Hd) as Hjr. rewrite HY by exact Hjr.
      apply (ex_inf _ _ _ _ _ HX' (sg i) (sg j)); [apply Hsgr; exact Hi|tauto|tauto|exact Hn'|]. eapply adjacent_in_adjacent. apply Hadj; eassumption.
    - intros i t Ht. rewrite HY in Ht by (eapply Hrange; exact Ht). apply (ex_nonneg _ _ _ _ _ HX' _ t Ht).
    - exact Hrange. }
  intros cs Hcs. pose proof (cell_number_range dims cs Hcs) as Hi.
  rewrite (exact_unique dims init fr f Hp Hf X Y HX HYe). rewrite HY by exact Hi. unfold sg. rewrite Hco by exact Hcs. reflexivity.
Qed.

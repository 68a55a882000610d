(** ExactPlace.v - the exact solution goes downhill to the initial points, and a map placed
    inside a larger one behind walls keeps its exact solution. *)
From Coq Require Import Reals Lra Psatz Permutation.
From Verif Require Import Base BaseFacts Grid GridFacts GridMore Spec EikR Solution Relax Exact ExactMore.
Open Scope Z_scope.

(** *** every cell has an earlier neighbour *)
Lemma US_le_max (l : list R) u b : (0 <= b)%R -> (forall a, In a l -> (u - a <= b)%R) -> (upwind_sum l u <= IZR (Z.of_nat (length l)) * (b * b))%R.
Proof.
  intros Hb. induction l as [|a l IH]; intros H; [cbn; lra|]. rewrite US_cons. cbn [length]. rewrite Nat2Z.inj_succ, succ_IZR.
  specialize (IH (fun x Hx => H x (or_intror Hx))). pose proof (H a (or_introl eq_refl)) as Ha.
  assert (Rsqr (Rmax (u - a) 0) <= b * b)%R; [|lra].
  change (b * b)%R with (Rsqr b). apply Rsqr_incr_1; [apply Rmax_lub; assumption|apply Rmax_r|exact Hb].
Qed.
Lemma somes_length {A} (l : list (option A)) : (length (somes l) <= length l)%nat.
Proof. induction l as [|[x|] l IH]; [apply Nat.le_refl| |]; cbn; unfold somes in IH; lia. Qed.
Lemma dmins_length dims T i : length (dmins dims T i) = length dims.
Proof. unfold dmins. rewrite map_length, seq_length. reflexivity. Qed.

(** the largest entry is at least the mean *)
Lemma exists_mean (l : list R) u S : l <> [] -> (forall n b, (length l <= n)%nat -> (0 <= b)%R -> (b * b * IZR (Z.of_nat n) = S)%R -> upwind_sum l u = S ->
  (0 < S)%R -> exists a, In a l /\ (b <= u - a)%R).
Proof.
  intros Hne n b Hn Hb HS HU HS0.
  assert (Hb0 : (0 < b)%R) by (destruct Hb as [L|L]; [exact L|subst b; lra]).
  (* the entry with the largest difference *)
  assert (HM : exists a, In a l /\ forall x, In x l -> (u - x <= u - a)%R).
  { clear - Hne. induction l as [|x l IH]; [contradiction|]. destruct l as [|y l]; [exists x; split; [left; reflexivity|]; intros z [->|[]]; lra|].
    destruct IH as [a [Ha Hm]]; [discriminate|]. destruct (Rle_dec x a) as [L|L].
    - exists x. split; [left; reflexivity|]. intros z [->|Hz]; [lra|]. specialize (Hm z Hz). lra.
    - exists a. split; [right; exact Ha|]. intros z [->|Hz]; [lra|]. apply Hm. exact Hz. }
  destruct HM as [a [Ha Hm]]. exists a. split; [exact Ha|]. destruct (Rle_dec b (u - a)) as [L|L]; [exact L|exfalso].
  assert (HnR : (IZR (Z.of_nat (length l)) <= IZR (Z.of_nat n))%R) by (apply IZR_le; lia).
  assert (H1 : (1 <= IZR (Z.of_nat (length l)))%R) by (apply IZR_le; destruct l; [contradiction|cbn [length]; lia]).
  set (c := Rmax (u - a) 0). assert (Hc : (0 <= c < b)%R) by (unfold c; split; [apply Rmax_r|apply Rmax_lub_lt; lra]).
  pose proof (US_le_max l u c (proj1 Hc)) as K.
  assert (Hall : forall x, In x l -> (u - x <= c)%R) by (intros x Hx; eapply Rle_trans; [apply (Hm x Hx)|apply Rmax_l]).
  specialize (K Hall). rewrite HU in K.
  assert (c * c < b * b)%R by nra. assert (IZR (Z.of_nat (length l)) * (c * c) < IZR (Z.of_nat n) * (b * b))%R; [|lra].
  apply Rle_lt_trans with (IZR (Z.of_nat n) * (c * c))%R; [apply Rmult_le_compat_r; [nra|exact HnR]|]. apply Rmult_lt_compat_l; lra.
Qed.

Theorem exact_descent dims (src fr : Z -> Prop) f X i x : proper dims -> (forall k, fr k -> 0 < f k)%R ->
  exact_solution dims src fr f X -> X i = Some x -> ~ src i ->
  exists j y, adjacent dims i j /\ X j = Some y /\ (y <= x - f i / sqrt (IZR (Z.of_nat (length dims))))%R.
Proof.
  intros Hp Hf HX Hx Hn. destruct (ex_at dims Hp _ _ _ _ i x HX Hx Hn) as [Hi [Hfi He]]. pose proof (Hf i Hfi) as Hfp.
  set (l := somes (dmins dims X i)) in *. assert (Hne : l <> []) by (intros E; rewrite E in He; cbn in He; nra).
  assert (Hlen : (length l <= length dims)%nat) by (unfold l; rewrite <- (dmins_length dims X i); apply somes_length).
  assert (Hnp : (0 < IZR (Z.of_nat (length dims)))%R) by (apply (IZR_lt 0); destruct l; [contradiction|cbn [length] in Hlen; lia]).
  set (q := sqrt (IZR (Z.of_nat (length dims)))) in *. assert (Hq : (0 < q)%R) by (apply sqrt_lt_R0; exact Hnp).
  assert (Eq : (q * q = IZR (Z.of_nat (length dims)))%R) by (apply sqrt_sqrt; lra).
  destruct (exists_mean l x (f i * f i) Hne (length dims) (f i / q)%R Hlen) as [a [Ha Hl]]; [| |exact He|nra|].
  - left. apply Rdiv_lt_0_compat; assumption.
  - rewrite <- Eq. field. lra.
  - destruct (in_somes_dmins dims Hp X i a Hi Ha) as [j [J1 J2]]. exists j, a. split; [exact J1|]. split; [exact J2|lra].
Qed.

(** *** placing a map in a larger one *)
(** the cell with coordinates [cs] of the map is the cell [place offs cs] of the larger one: a
    shift by [offs], and fixed coordinates in the dimensions the map does not have *)
Fixpoint place (offs cs : list Z) : list Z :=
  match offs, cs with
  | o :: offs, c :: cs => (o + c) :: place offs cs
  | offs, _ => offs
  end.
Inductive fits : list Z -> list Z -> list Z -> Prop :=
| fits_nil : fits [] [] []
| fits_more o k' offs dims' : 0 <= o < k' -> fits [] offs dims' -> fits [] (o :: offs) (k' :: dims')
| fits_cons k o k' dims offs dims' : 0 <= o -> o + k <= k' -> fits dims offs dims' -> fits (k :: dims) (o :: offs) (k' :: dims').

Definition placed (dims offs es : list Z) : Prop := exists ds, in_box dims ds /\ es = place offs ds.

Lemma fits_box0 offs dims' : fits [] offs dims' -> in_box dims' offs.
Proof.
  revert offs. induction dims' as [|k' dims' IH]; intros offs H; inversion H; subst; constructor; [assumption|]. apply IH. assumption.
Qed.
Lemma fits_box dims offs dims' : fits dims offs dims' -> forall cs, in_box dims cs -> in_box dims' (place offs cs).
Proof.
  intros H. induction H; intros cs Hc.
  - inversion Hc; subst. constructor.
  - inversion Hc; subst. cbn [place]. constructor; [lia|]. apply fits_box0. assumption.
  - inversion Hc as [|? c ? cr Hc1 Hc2]; subst. cbn [place]. constructor; [lia|apply IHfits; exact Hc2].
Qed.
Lemma fits_proper dims offs dims' : proper dims -> fits dims offs dims' -> proper dims'.
Proof.
  intros Hp H. induction H; [constructor| |]; (constructor; [|]).
  - lia.
  - apply IHfits. exact Hp.
  - inversion Hp; subst. lia.
  - apply IHfits. inversion Hp; assumption.
Qed.
Lemma fits_length dims offs dims' : fits dims offs dims' -> (length dims <= length dims')%nat /\ length offs = length dims'.
Proof. intros H; induction H; cbn [length]; lia. Qed.
Lemma place_inj dims offs dims' : fits dims offs dims' -> forall cs ds, in_box dims cs -> in_box dims ds -> place offs cs = place offs ds -> cs = ds.
Proof.
  intros H. induction H; intros cs ds Hc Hd E; inversion Hc; inversion Hd; subst; try reflexivity.
  cbn [place] in E. injection E as E1 E2. f_equal; [lia|]. apply IHfits; assumption.
Qed.
Lemma place_step dims offs dims' : fits dims offs dims' -> forall d cs ds, in_box dims cs -> in_box dims ds ->
  (unit_step_at d (place offs cs) (place offs ds) <-> unit_step_at d cs ds).
Proof.
  intros H. induction H; intros d cs ds Hc Hd; inversion Hc as [|? c ? cr Hc1 Hc2]; inversion Hd as [|? e ? er Hd1 Hd2]; subst.
  - cbn [place]. reflexivity.
  - cbn [place]. split; intros K; [exfalso|inversion K]. revert K. generalize (o :: offs). intros l. revert d. induction l as [|a l IHl]; intros d K; inversion K; subst; [lia|eapply IHl; eauto].
  - cbn [place]. split; intros K; inversion K; subst.
    + assert (er = cr) by (eapply (place_inj _ _ _ H1); eauto). subst er. constructor. lia.
    + assert (e = c) by lia. subst e. constructor. apply IHfits; assumption.
    + constructor. lia.
    + constructor. apply IHfits; assumption.
Qed.
Lemma placed_dec dims offs dims' : fits dims offs dims' -> forall es, in_box dims' es -> placed dims offs es \/ ~ placed dims offs es.
Proof.
  intros H. induction H; intros es He.
  - inversion He; subst. left. exists []. split; [constructor|reflexivity].
  - destruct (list_eq_dec Z.eq_dec es (o :: offs)) as [E|E]; [left; exists []; split; [constructor|exact E]|right].
    intros [ds [Hd Ed]]. inversion Hd; subst. contradiction.
  - inversion He as [|? e ? er He1 He2]; subst. destruct (IHfits er He2) as [[ds [Hd ->]]|K].
    + destruct (Z.leb_spec o e); [destruct (Z.ltb_spec e (o + k))|].
      * left. exists ((e - o) :: ds). split; [constructor; [lia|exact Hd]|]. cbn [place]. f_equal. lia.
      * right. intros [ds' [Hd' Ed]]. inversion Hd'; subst. cbn [place] in Ed. injection Ed as E1 E2. lia.
      * right. intros [ds' [Hd' Ed]]. inversion Hd'; subst. cbn [place] in Ed. injection Ed as E1 E2. lia.
    + right. intros [ds' [Hd' Ed]]. inversion Hd' as [|? c ? cr Hc1 Hc2]; subst. cbn [place] in Ed. injection Ed as E1 E2. apply K. exists cr. auto.
Qed.
Lemma place_extra dims offs dims' : fits dims offs dims' -> forall d cs es, in_box dims cs -> (length dims <= d)%nat ->
  unit_step_at d (place offs cs) es -> ~ placed dims offs es.
Proof.
  intros H. induction H; intros d cs es Hc Hd Hs [ds [Hds E]].
  - inversion Hc; subst. cbn in Hs. inversion Hs.
  - inversion Hc; inversion Hds; subst. cbn [place] in Hs. revert Hs. generalize (o :: offs). intros l. clear. revert d. induction l as [|a l IHl]; intros d K; inversion K; subst; [lia|eapply IHl; eauto].
  - inversion Hc as [|? c ? cr Hc1 Hc2]; inversion Hds as [|? e ? er Hd1 Hd2]; subst. cbn [place] in Hs. cbn [length] in Hd. destruct d as [|d]; [lia|].
    inversion Hs; subst. apply (IHfits d cr (place offs er) Hc2); [lia|assumption|]. exists er. auto.
Qed.

Theorem exact_placed dims offs dims' (init init' : list Z) (fr fr' : Z -> Prop) f f' X X' : proper dims -> fits dims offs dims' ->
  (forall i, fr i -> 0 < f i)%R -> (forall i, In i init -> 0 <= i < box_size dims) ->
  (forall cs, in_box dims cs -> let i := cell_number dims cs in let j := cell_number dims' (place offs cs) in
     (In i init <-> In j init') /\ (fr i <-> fr' j) /\ f' j = f i) ->
  (forall cs es, in_box dims cs -> in_box dims' es -> unit_step (place offs cs) es -> ~ placed dims offs es ->
     ~ fr' (cell_number dims' es) /\ ~ In (cell_number dims' es) init') ->
  exact_solution dims (fun i => In i init) fr f X -> exact_solution dims' (fun i => In i init') fr' f' X' ->
  forall cs, in_box dims cs -> X' (cell_number dims' (place offs cs)) = X (cell_number dims cs).
Proof.
  intros Hp Hfit Hf Hr Him Hwall HX HX'. pose proof (fits_proper _ _ _ Hp Hfit) as Hp'. pose proof (fits_box _ _ _ Hfit) as Hbox.
  destruct (fits_length _ _ _ Hfit) as [Hlen _].
  set (sg := fun i => cell_number dims' (place offs (coords_of dims i))).
  set (Y := fun i => if (0 <=? i) && (i <? box_size dims) then X' (sg i) else None).
  assert (HY : forall i, 0 <= i < box_size dims -> Y i = X' (sg i)).
  { intros i Hi. unfold Y. destruct (Z.leb_spec 0 i); [|lia]. destruct (Z.ltb_spec i (box_size dims)); [reflexivity|lia]. }
  assert (Hco : forall l, in_box dims l -> coords_of dims (cell_number dims l) = l).
  { intros l Hl. pose proof (cell_number_range dims l Hl). apply (cell_number_inj dims); [apply coords_of_in_box; assumption|exact Hl|]. apply cell_number_coords_of; assumption. }
  assert (Hb : forall i, 0 <= i < box_size dims -> in_box dims (coords_of dims i)) by (intros; apply coords_of_in_box; assumption).
  assert (Hn : forall i, 0 <= i < box_size dims -> cell_number dims (coords_of dims i) = i) by (intros; apply cell_number_coords_of; assumption).
  assert (Hsg : forall i, 0 <= i < box_size dims -> (In i init <-> In (sg i) init') /\ (fr i <-> fr' (sg i)) /\ f' (sg i) = f i).
  { intros i Hi. specialize (Him _ (Hb i Hi)). cbv zeta in Him. rewrite (Hn i Hi) in Him. exact Him. }
  assert (Hrange : forall i t, Y i = Some t -> 0 <= i < box_size dims).
  { intros i t H. unfold Y in H. destruct (Z.leb_spec 0 i); [|discriminate]. destruct (Z.ltb_spec i (box_size dims)); [|discriminate]. lia. }
  assert (Hsgr : forall i, 0 <= i < box_size dims -> 0 <= sg i < box_size dims') by (intros i Hi; apply cell_number_range, Hbox, Hb, Hi).
  assert (Hadjr : forall d i j, adjacent_in dims d i j -> 0 <= j < box_size dims) by (intros d i j [cs [ds [_ [H2 [_ [_ <-]]]]]]; apply cell_number_range; exact H2).
  assert (Hadj : forall d i j, 0 <= i < box_size dims -> adjacent_in dims d i j -> adjacent_in dims' d (sg i) (sg j)).
  { intros d i j Hi [cs [ds [H1 [H2 [H3 [H4 H5]]]]]]. subst i j. unfold sg. rewrite !Hco by assumption. exists (place offs cs), (place offs ds).
    split; [auto|]. split; [auto|]. split; [apply (place_step _ _ _ Hfit d cs ds H1 H2); exact H3|auto]. }
  assert (Hback : forall d i j', 0 <= i < box_size dims -> adjacent_in dims' d (sg i) j' ->
    (exists j, j' = sg j /\ adjacent_in dims d i j) \/ X' j' = None).
  { intros d i j' Hi [cs [es [H1 [H2 [H3 [H4 H5]]]]]]. apply cell_number_inj in H4; [|exact H1|apply Hbox, Hb, Hi]. subst cs.
    destruct (placed_dec _ _ _ Hfit es H2) as [[ds [Hd ->]]|Hout].
    - left. exists (cell_number dims ds). unfold sg. rewrite (Hco ds Hd). split; [symmetry; exact H5|]. exists (coords_of dims i), ds.
      split; [auto|]. split; [exact Hd|]. split; [apply (place_step _ _ _ Hfit d _ _ (Hb i Hi) Hd); exact H3|]. split; [apply Hn; exact Hi|reflexivity].
    - right. destruct (Hwall _ es (Hb i Hi) H2 (proj2 (unit_step_at_iff _ _) (ex_intro _ _ H3)) Hout) as [W1 W2]. rewrite H5 in W1, W2.
      destruct (X' j') as [t|] eqn:E; [|reflexivity]. destruct (ex_at dims' Hp' _ _ _ _ j' t HX' E W2) as [_ [K _]]. contradiction. }
  assert (Hmin : forall i, 0 <= i < box_size dims -> somes (dmins dims' X' (sg i)) = somes (dmins dims Y i)).
  { intros i Hi. assert (E : dmins dims Y i ++ repeat None (length dims' - length dims) = dmins dims' X' (sg i)).
    { apply (minima_unique dims' X' (sg i) _ Hp' (Hsgr i Hi)). unfold minima. replace (length dims') with (length dims + (length dims' - length dims))%nat at 1 by lia.
      rewrite seq_app. apply Forall2_app; [|].
      - pose proof (dmins_spec dims Y i Hp Hi) as M. unfold minima in M.
        induction M as [|d m ds ms M _ IH]; constructor; [|exact IH]. destruct m as [r|]; cbn [dim_min] in *.
        + destruct M as [[j [J1 J2]] J3]. split; [exists (sg j); split; [apply Hadj; assumption|rewrite <- HY; [exact J2|eapply Hadjr; eauto]]|].
          intros k' s Hk Hs. destruct (Hback d i k' Hi Hk) as [[k [-> K]]|K]; [|congruence]. apply (J3 k s K). rewrite HY; [exact Hs|eapply Hadjr; eauto].
        + intros k' Hk. destruct (Hback d i k' Hi Hk) as [[k [-> K]]|K]; [|exact K]. rewrite <- HY; [apply (M k K)|eapply Hadjr; eauto].
      - cbn [Nat.add]. assert (G : forall n s, (length dims <= s)%nat -> Forall2 (dim_min dims' X' (sg i)) (seq s n) (repeat None n)).
        { induction n as [|n IHn]; intros s Hs; cbn [seq repeat]; constructor; [|apply IHn; lia]. cbn [dim_min]. intros k' [cs [es [H1 [H2 [H3 [H4 H5]]]]]].
          apply cell_number_inj in H4; [|exact H1|apply Hbox, Hb, Hi]. subst cs.
          pose proof (place_extra _ _ _ Hfit s _ es (Hb i Hi) Hs H3) as Hout.
          destruct (Hwall _ es (Hb i Hi) H2 (proj2 (unit_step_at_iff _ _) (ex_intro _ _ H3)) Hout) as [W1 W2]. rewrite H5 in W1, W2.
          destruct (X' k') as [t|] eqn:E; [|reflexivity]. destruct (ex_at dims' Hp' _ _ _ _ k' t HX' E W2) as [_ [K _]]. contradiction. }
        apply G. lia. }
    rewrite <- E. unfold somes. rewrite flat_map_app. assert (Z0 : forall n, flat_map (fun o : option R => match o with Some x => [x] | None => [] end) (repeat None n) = []) by (induction n; cbn; auto).
    rewrite Z0, app_nil_r. reflexivity. }
  assert (HYX : exact_solution dims (fun i => In i init) fr f Y).
  { constructor.
    - intros i Hi. rewrite (HY i (Hr i Hi)). apply (ex_src _ _ _ _ _ HX'). apply Hsg; auto.
    - intros i t ms Ht Hns Hms. pose proof (Hrange i t Ht) as Hi. rewrite (HY i Hi) in Ht. destruct (Hsg i Hi) as [S1 [S2 S3]].
      assert (Hns' : ~ In (sg i) init') by (intros K; apply Hns, S1, K).
      destruct (ex_at dims' Hp' _ _ _ _ _ t HX' Ht Hns') as [_ [Hfi He]]. split; [apply S2; exact Hfi|].
      rewrite (minima_unique dims Y i _ Hp Hi Hms), <- (Hmin i Hi), <- S3. exact He.
    - intros i j Hi Hfi Hns Ht Hj. rewrite (HY i Hi) in Ht. destruct (Hsg i Hi) as [S1 [S2 S3]].
      destruct (adjacent_adjacent_in dims i j Hj) as [d [Hd1 Hd2]]. rewrite (HY j (Hadjr d i j Hd2)).
      apply (ex_inf _ _ _ _ _ HX' (sg i) (sg j) (Hsgr i Hi)); [apply S2; exact Hfi|intros K; apply Hns, S1, K|exact Ht|].
      eapply adjacent_in_adjacent. apply (Hadj d i j Hi Hd2).
    - intros i t Ht. pose proof (Hrange i t Ht) as Hi. rewrite (HY i Hi) in Ht. apply (ex_nonneg _ _ _ _ _ HX' _ t Ht).
    - exact Hrange. }
  intros cs Hcs. pose proof (exact_unique dims init fr f Hp Hf X Y HX HYX (cell_number dims cs)) as E.
  rewrite E, HY by (apply cell_number_range; exact Hcs). unfold sg. rewrite (Hco cs Hcs). reflexivity.
Qed.

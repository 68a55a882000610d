(** GDFacts.v - gradient descent on exact grids. *)
From Coq Require Import Reals Lra.
From Verif Require Import Base BaseFacts Num NumXR NumLaws Grid GridFacts GridMore GridUpd SolverModel FM2Model GDModel Spec DescentSpec Obs XGrid EikR EikX Solution.
Open Scope Z_scope.

Lemma floor_spec x : (IZR (Rfloor x) <= x < IZR (Rfloor x) + 1)%R.
Proof. unfold Rfloor. rewrite minus_IZR. destruct (archimed x). lra. Qed.

Lemma floor_unique x z : (IZR z <= x < IZR z + 1)%R -> Rfloor x = z.
Proof.
  intros H. pose proof (floor_spec x) as F.
  assert (A : (IZR (Rfloor x) < IZR (z + 1))%R) by (rewrite plus_IZR; lra).
  assert (B : (IZR z < IZR (Rfloor x + 1))%R) by (rewrite plus_IZR; lra).
  apply lt_IZR in A. apply lt_IZR in B. lia.
Qed.

(** ** shifted coordinates *)
Lemma length_shifted cs d e : (d < length cs)%nat -> length (shifted cs d e) = length cs.
Proof. intros H. unfold shifted. rewrite app_length, firstn_length. cbn [length]. rewrite skipn_length. lia. Qed.

Lemma shifted_number dims : forall cs d e, length cs = length dims -> (d < length dims)%nat ->
  cell_number dims (shifted cs d e) = cell_number dims cs + e * stride_of dims d.
Proof.
  induction dims as [|k ks IH]; intros cs d e Hl Hd; cbn [length] in *; [lia|].
  destruct cs as [|c cr]; cbn [length] in Hl; [lia|]. destruct d as [|d].
  - unfold shifted, stride_of. cbn. lia.
  - unfold shifted. cbn [firstn skipn nth app cell_number].
    change (firstn d cr ++ (nth d cr 0 + e) :: match cr with [] => [] | _ :: l => skipn d l end)
      with (shifted cr d e). rewrite IH by lia.
    unfold stride_of. cbn [firstn]. rewrite box_size_cons. nia.
Qed.

Lemma shifted_in_box dims cs d e : in_box dims cs -> (d < length dims)%nat -> 0 <= nth d cs 0 + e < nth d dims 1 ->
  in_box dims (shifted cs d e).
Proof.
  intros H; revert d; induction H as [|k c ks cr Hk Hr IH]; intros d Hd Hn; cbn [length] in Hd; [lia|].
  destruct d as [|d]; unfold shifted; cbn [firstn skipn nth app] in *.
  - constructor; [exact Hn|exact Hr].
  - constructor; [exact Hk|]. exact (IH d ltac:(lia) Hn).
Qed.

Lemma F2_impl {A B} (P Q : A -> B -> Prop) l m : (forall x y, P x y -> Q x y) -> Forall2 P l m -> Forall2 Q l m.
Proof. intros H; induction 1; constructor; auto. Qed.

Lemma F2_length {A B} (P : A -> B -> Prop) l m : Forall2 P l m -> length l = length m.
Proof. induction 1; cbn; congruence. Qed.

Lemma interior_in_box dims cs : interior dims cs -> in_box dims cs.
Proof. intros H. eapply F2_impl; [|exact H]. cbn; intros; lia. Qed.

Lemma F2_nth {A B} (R0 : A -> B -> Prop) l1 l2 a b n : Forall2 R0 l1 l2 -> (n < length l1)%nat -> R0 (nth n l1 a) (nth n l2 b).
Proof. intros H; revert n; induction H; intros [|n] Hn; cbn in *; try lia; auto. apply IHForall2; lia. Qed.

Lemma F2_intro {A B} (R0 : A -> B -> Prop) l1 l2 a b : length l1 = length l2 ->
  (forall n, (n < length l1)%nat -> R0 (nth n l1 a) (nth n l2 b)) -> Forall2 R0 l1 l2.
Proof.
  revert l2; induction l1 as [|x r IH]; intros [|y s] Hl H; cbn in Hl; try discriminate; constructor.
  - apply (H 0%nat); cbn; lia.
  - apply IH; [lia|]. intros n Hn. apply (H (S n)); cbn; lia.
Qed.

(** ** strides *)

Lemma removelast_firstn_nth {A} (l : list A) n : (S n < length l)%nat -> nth_error (removelast l) n = nth_error l n.
Proof.
  revert n; induction l as [|x r IH]; intros n Hn; cbn [length] in Hn; [lia|].
  destruct r as [|y r]; [cbn in Hn; lia|]. destruct n as [|n]; [reflexivity|].
  change (removelast (x :: y :: r)) with (x :: removelast (y :: r)). cbn [nth_error]. apply IH. cbn [length] in *; lia.
Qed.

Lemma length_removelast {A} (l : list A) : length (removelast l) = (length l - 1)%nat.
Proof.
  induction l as [|x r IH]; [reflexivity|]. destruct r as [|y r]; [reflexivity|].
  change (removelast (x :: y :: r)) with (x :: removelast (y :: r)). cbn [length] in *. lia.
Qed.

Lemma list_ext {A} (l1 l2 : list A) : length l1 = length l2 ->
  (forall n, (n < length l1)%nat -> nth_error l1 n = nth_error l2 n) -> l1 = l2.
Proof.
  revert l2; induction l1 as [|x r IH]; intros [|y s] Hl H; cbn in Hl; try discriminate; [reflexivity|].
  pose proof (H 0%nat ltac:(cbn; lia)) as E. cbn in E. injection E as ->. f_equal.
  apply IH; [lia|]. intros n Hn. apply (H (S n)). cbn; lia.
Qed.

Lemma strides dims : proper dims -> box_size dims < 4294967296 -> dims <> [] ->
  removelast (s_d (mk_shape dims)) = map (stride_of dims) (seq 1 (length dims - 1)).
Proof.
  intros Hp Hb Hne. rewrite mk_shape_eq by assumption. cbn [s_d].
  apply list_ext.
  - rewrite length_removelast, length_pps, map_length, seq_length. reflexivity.
  - intros n Hn. rewrite length_removelast, length_pps in Hn.
    rewrite removelast_firstn_nth by (rewrite length_pps; lia).
    rewrite nth_pps by lia. rewrite nth_error_map.
    rewrite (nth_error_nth' (seq 1 (length dims - 1)) 0%nat) by (rewrite seq_length; lia).
    rewrite seq_nth by lia. cbn [option_map]. f_equal. unfold stride_of. rewrite Z.mul_1_l. f_equal.
Qed.

(** ** one component *)
Definition comp (o : option R) : XR := match o with Some r => XFin r | None => XNaN end.

Lemma sgn_inf : sgn (N := XR) XPInf = XFin 1 /\ sgn (N := XR) XNInf = XFin (-1).
Proof. split; reflexivity. Qed.

Lemma half_ox o : (ndiv (ox o) (nofZ 2) : XR) = match o with Some r => XFin (r / 2) | None => XPInf end.
Proof.
  destruct o as [r|]; cbn.
  - unfold Reqb. destruct (Req_EM_T 2 0); [lra|reflexivity].
  - unfold Rltb. destruct (Rlt_dec 2 0); [lra|reflexivity].
Qed.
Lemma half_opp o : (ndiv (nopp (ox o)) (nofZ 2) : XR) = match o with Some r => XFin (- r / 2) | None => XNInf end.
Proof.
  destruct o as [r|]; cbn.
  - unfold Reqb. destruct (Req_EM_T 2 0); [lra|reflexivity].
  - unfold Rltb. destruct (Rlt_dec 2 0); [lra|reflexivity].
Qed.

Lemma gd_component_X dims (g : grid XR) i st :
  grid_ok dims g -> times_ok g -> 2 * box_size dims <= 4294967296 ->
  0 <= i - st < box_size dims -> 0 <= i + st < box_size dims ->
  gd_component g i st = Ok (comp (slope (times g (i - st)) (times g (i + st)))).
Proof.
  intros Hg Ht Hb H1 H2. unfold gd_component. rewrite !u32_small by lia.
  destruct (getCell_in dims g (i - st) Hg H1) as [a Ha]. destruct (getCell_in dims g (i + st) Hg H2) as [b Eb].
  rewrite Ha, Eb. cbn [bind]. rewrite (times_val g _ a Ht Ha), (times_val g _ b Ht Eb).
  fold (ox (times g (i - st))). fold (ox (times g (i + st))). rewrite half_ox, half_opp. f_equal.
  destruct (times g (i - st)) as [ra|], (times g (i + st)) as [rb|]; cbn; try reflexivity.
  f_equal. lra.
Qed.

(** ** the gradient *)
Lemma gradient_fold (g : grid XR) i sts : forall xs m ys,
  Forall2 (fun st y => gd_component g i st = Ok y) sts ys ->
  exists m', foldM (fun '(xs, m) st => x <- gd_component g i st ;;
               Ok (xs ++ [x], if nltb (nabs m) (nabs x) then x else m)) sts (xs, m) = Ok (xs ++ ys, m') /\
    (m = XNaN -> m' = XNaN) /\
    (forall M rs, m = XFin M -> ys = (map XFin rs : list XR) ->
       exists M', m' = XFin M' /\ (Rabs M <= Rabs M')%R /\ (forall r, In r rs -> Rabs r <= Rabs M')%R /\
                  (M' = M \/ In M' rs)).
Proof.
  induction sts as [|st sts IH]; intros xs m ys H; inversion H as [|? y ? ys' Hy Hr]; subst.
  - exists m. cbn. rewrite app_nil_r. split; [reflexivity|]. split; [auto|].
    intros M rs -> E. destruct rs; [|discriminate]. exists M. repeat split; auto; [lra|]. intros r [].
  - cbn [foldM]. rewrite Hy. cbn [bind].
    destruct (IH (xs ++ [y]) (if nltb (nabs m) (nabs y) then y else m) ys' Hr) as [m' [E [Hn Hf]]].
    exists m'. rewrite E, <- app_assoc. split; [reflexivity|]. split.
    + intros ->. apply Hn. destruct y; reflexivity.
    + intros M rs -> Ers. destruct rs as [|r rs]; [discriminate|]. cbn in Ers. injection Ers as -> Ers.
      assert (EC : nltb (nabs (XFin M : XR)) (nabs (XFin r : XR)) = Rltb (Rabs M) (Rabs r)) by reflexivity.
      rewrite EC in Hf. destruct (Rltb (Rabs M) (Rabs r)) eqn:C.
      * apply Rltb_true in C. destruct (Hf r rs eq_refl Ers) as [M' [-> [A [B D]]]]. exists M'.
        split; [reflexivity|]. split; [lra|]. split.
        -- intros q [<-|Hq]; [exact A|apply B, Hq].
        -- right. destruct D as [->|D]; [left; reflexivity|right; exact D].
      * apply Rltb_false in C. destruct (Hf M rs eq_refl Ers) as [M' [-> [A [B D]]]]. exists M'.
        split; [reflexivity|]. split; [exact A|]. split.
        -- intros q [<-|Hq]; [lra|apply B, Hq].
        -- destruct D as [->|D]; [left; reflexivity|right; right; exact D].
Qed.

Lemma gradient_X (g : grid XR) dims i ys :
  proper dims -> box_size dims < 4294967296 -> dims <> [] -> g_sh g = mk_shape dims ->
  Forall2 (fun d y => gd_component g i (stride_of dims d) = Ok y) (seq 0 (length dims)) ys ->
  exists m, gd_gradient g i = Ok (ys, m) /\
    (forall rs, ys = (map XFin rs : list XR) -> exists M, m = XFin M /\ max_abs rs (Rabs M)) /\
    (hd_error ys = Some (XNaN : XR) -> m = XNaN).
Proof.
  intros Hp Hb Hne Hs H. unfold gd_gradient. rewrite Hs.
  assert (Hd : s_dims (mk_shape dims) = dims) by (rewrite mk_shape_eq by assumption; reflexivity).
  rewrite Hd. rewrite strides by assumption.
  destruct dims as [|k ks]; [congruence|]. set (dims := k :: ks) in *.
  assert (El : length dims = S (length dims - 1)) by (cbn; lia).
  rewrite El in H. cbn [seq] in H. inversion H as [|? y ? ys' Hy Hr]; subst.
  change (stride_of dims 0) with 1 in Hy.
  change (match dims with [] => Fail UB | _ :: _ => x0 <- gd_component g i 1 ;; foldM (fun '(xs, m) st => x <- gd_component g i st ;;
               Ok (xs ++ [x], if nltb (nabs m) (nabs x) then x else m)) (map (stride_of dims) (seq 1 (length dims - 1))) ([x0], nabs x0) end)
    with (x0 <- gd_component g i 1 ;; foldM (fun '(xs, m) st => x <- gd_component g i st ;;
               Ok (xs ++ [x], if nltb (nabs m) (nabs x) then x else m)) (map (stride_of dims) (seq 1 (length dims - 1))) ([x0], nabs x0)).
  rewrite Hy. cbn [bind].
  assert (Hr' : Forall2 (fun st y => gd_component g i st = Ok y) (map (stride_of dims) (seq 1 (length dims - 1))) ys').
  { clear - Hr. change (length ks - 0)%nat with (length dims - 1)%nat in Hr. revert Hr. generalize (seq 1 (length dims - 1)) as l. intros l Hr. induction Hr; constructor; auto. }
  destruct (gradient_fold g i _ [y] (nabs y) ys' Hr') as [m [E [Hn Hf]]]. exists m. split; [exact E|]. split.
  - intros rs Ers. destruct rs as [|r rs]; [discriminate|]. cbn in Ers. pose proof (f_equal (hd (XNaN : XR)) Ers) as Ey. pose proof (f_equal (@tl XR) Ers) as Et. cbn [hd tl] in Ey, Et. clear Ers. rename Et into Ers. subst y.
    destruct (Hf (Rabs r) rs eq_refl Ers) as [M [-> [A [B D]]]]. rewrite Rabs_Rabsolu in A. exists M. split; [reflexivity|].
    split.
    + intros q [<-|Hq]; auto.
    + destruct D as [->|D]; [exists r; split; [left; reflexivity|now rewrite Rabs_Rabsolu]|exists M; split; [right; exact D|reflexivity]].
  - cbn [hd_error]. intros E1. assert (Ey : y = XNaN) by congruence. rewrite Ey in *. apply Hn. reflexivity.
Qed.

(** ** moving and rounding *)
Lemma half_XR : (ndiv n1 (nofZ 2) : XR) = XFin (1 / 2).
Proof. cbn. unfold Reqb. destruct (Req_EM_T 2 0); [lra|reflexivity]. Qed.

Lemma gd_round_finite (x : XR) z : gd_round x = Ok z -> exists r, x = XFin r.
Proof. unfold gd_round. rewrite half_XR. destruct x as [r| | |]; intros H; [eauto|cbn in H; congruence..]. Qed.

Lemma gd_round_fail {N : Num} (x : N) e : gd_round x = Fail e -> e = UB.
Proof.
  unfold gd_round. destruct ntrunc; [|congruence]. destruct (_ && _); congruence.
Qed.

Lemma mapM_fail {A B} (f : A -> res B) l e : mapM f l = Fail e -> exists x, In x l /\ f x = Fail e.
Proof.
  induction l as [|x r IH]; cbn; [discriminate|]. destruct (f x) as [b|e'] eqn:E; cbn.
  - destruct (mapM f r) eqn:E2; cbn; [discriminate|]. intros H. destruct IH as [y [Hy Hf]]; [congruence|].
    exists y; auto.
  - intros H. exists x; split; [auto|congruence].
Qed.

Lemma mapM_F2 {A B} (f : A -> res B) l ys : mapM f l = Ok ys <-> Forall2 (fun x y => f x = Ok y) l ys.
Proof.
  split.
  - revert ys; induction l as [|x r IH]; intros ys; cbn.
    + intros H; injection H as <-; constructor.
    + intros H. apply bind_ok in H. destruct H as [y [Hy H]]. apply bind_ok in H. destruct H as [ys' [Hys H]].
      injection H as <-. constructor; auto.
  - induction 1 as [|x y l ys Hx Hr IH]; cbn; [reflexivity|]. rewrite Hx. cbn. rewrite IH. reflexivity.
Qed.

Lemma gd_round_X x z : (IZR z - 1 / 2 <= x < IZR z + 1 / 2)%R -> 0 <= z <= 2147483647 -> gd_round (XFin x : XR) = Ok z.
Proof.
  intros H Hz. unfold gd_round. rewrite half_XR.
  assert (E : ntrunc (nadd (XFin x : XR) (XFin (1 / 2))) = Some (if Rltb (x + 1 / 2) 0 then - Rfloor (- (x + 1 / 2)) else Rfloor (x + 1 / 2))) by reflexivity.
  rewrite E. assert (0 <= IZR z)%R by (apply IZR_le; lia).
  assert (C : Rltb (x + 1 / 2) 0 = false) by (unfold Rltb; destruct Rlt_dec; [lra|reflexivity]).
  rewrite C. rewrite (floor_unique (x + 1 / 2) z) by lra.
  destruct (Z.leb_spec (-2147483648) z); [|lia]. destruct (Z.leb_spec z 2147483647); [|lia]. cbn [andb].
  rewrite u32_small by lia. reflexivity.
Qed.

Lemma move_X s M p x : M <> 0%R -> gd_move (XFin s : XR) (XFin M) (XFin p) (XFin x) = XFin (p - s * x / Rabs M).
Proof.
  intros H. unfold gd_move. cbn. unfold Reqb. destruct (Req_EM_T (Rabs M) 0) as [E|E].
  - apply Rabs_no_R0 in H. contradiction.
  - cbn. reflexivity.
Qed.

(** a gradient that is not finite, or vanishes, makes the rounding undefined *)
Lemma move_bad s m p x : m = XNaN \/ x = XNaN -> gd_move (XFin s : XR) m (XFin p) x = XNaN.
Proof. intros [->| ->]; unfold gd_move; [destruct x|]; cbn; try reflexivity. destruct (xinf_of_sign s); reflexivity. all: destruct (xopp (xinf_of_sign s)); reflexivity. Qed.
Lemma move_zero s p : gd_move (XFin s : XR) (XFin 0) (XFin p) (XFin 0) = XNaN.
Proof.
  unfold gd_move. cbn. rewrite Rabs_R0. unfold Reqb. destruct (Req_EM_T 0 0); [|congruence].
  rewrite Rmult_0_r. unfold xinf_of_sign, Rltb. destruct (Rlt_dec 0 0); [lra|]. reflexivity.
Qed.

(** ** one iteration from an interior cell *)
Lemma nth_move (s M : R) : forall p gs n, length p = length gs -> (n < length p)%nat ->
  nth n (map (fun xr => fst xr - s * snd xr / M)%R (combine p gs)) 0%R = (nth n p 0 - s * nth n gs 0 / M)%R.
Proof.
  induction p as [|x p IH]; intros [|y gs] n Hl Hn; cbn [length] in *; try lia.
  destruct n as [|n]; cbn; [reflexivity|]. apply IH; lia.
Qed.

Lemma nth_error_move {A B C} (f : A * B -> C) : forall p ys n x y,
  nth_error p n = Some x -> nth_error ys n = Some y -> nth_error (map f (combine p ys)) n = Some (f (x, y)).
Proof.
  induction p as [|a p IH]; intros [|b ys] [|n] x y Hx Hy; cbn in *; try discriminate.
  - congruence.
  - apply IH; assumption.
Qed.

Lemma F2_nth_error {A B} (P : A -> B -> Prop) l m n x : Forall2 P l m -> nth_error l n = Some x -> exists y, nth_error m n = Some y /\ P x y.
Proof. intros H; revert n; induction H; intros [|n] E; cbn in *; try discriminate; [injection E as <-; eauto|auto]. Qed.

Section Interior.
Context (dims : list Z) (g : grid XR) (s : R).
Hypothesis (Hsh : shape_ok dims) (Hne : dims <> []) (Hg : grid_ok dims g) (Hok : times_ok g).
Hypothesis Hwall : forall cs, in_box dims cs -> ~ interior dims cs -> times g (cell_number dims cs) = None.
Hypothesis (Hs0 : (0 < s)%R) (Hs1 : (s <= 1)%R).

Let Hp : proper dims := dims2_proper dims (proj1 Hsh).
Let H2 : 2 * box_size dims <= 4294967296 := proj2 Hsh.

Lemma interior_nth cs d : interior dims cs -> (d < length dims)%nat -> 0 < nth d cs 0 < nth d dims 1 - 1.
Proof. intros H Hd. exact (F2_nth _ _ _ 1 0 d H Hd). Qed.

Lemma components cs : interior dims cs ->
  Forall2 (fun d y => gd_component g (cell_number dims cs) (stride_of dims d) = Ok y) (seq 0 (length dims))
    (map (fun d => comp (slope_at dims (times g) cs d)) (seq 0 (length dims))).
Proof.
  intros Hi. pose proof (interior_in_box _ _ Hi) as Hb. pose proof (in_box_length _ _ Hb) as Hl.
  assert (H : forall d, In d (seq 0 (length dims)) -> gd_component g (cell_number dims cs) (stride_of dims d) = Ok (comp (slope_at dims (times g) cs d))).
  { intros d Hd. apply in_seq in Hd. pose proof (interior_nth cs d Hi ltac:(lia)) as Hn.
    unfold slope_at. rewrite !shifted_number by lia.
    pose proof (cell_number_range dims _ (shifted_in_box dims cs d (-1) Hb ltac:(lia) ltac:(lia))) as R1.
    pose proof (cell_number_range dims _ (shifted_in_box dims cs d 1 Hb ltac:(lia) ltac:(lia))) as R2.
    rewrite !shifted_number in R1, R2 by lia.
    rewrite (gd_component_X dims g) by (assumption || lia).
    do 4 f_equal; lia. }
  revert H. generalize (seq 0 (length dims)) as l. induction l as [|d l IH]; intros H; cbn [map]; constructor.
  - apply H; left; reflexivity.
  - apply IH. intros e He; apply H; right; exact He.
Qed.

Definition grads cs := map (fun d => match slope_at dims (times g) cs d with Some r => r | None => 0%R end) (seq 0 (length dims)).

Lemma nth_grads cs d r : (d < length dims)%nat -> slope_at dims (times g) cs d = Some r -> nth d (grads cs) 0%R = r.
Proof.
  intros Hd E. unfold grads.
  rewrite (nth_indep _ 0%R (match slope_at dims (times g) cs 0%nat with Some r => r | None => 0%R end)) by (rewrite map_length, seq_length; exact Hd).
  rewrite (map_nth (fun d => match slope_at dims (times g) cs d with Some r => r | None => 0%R end) (seq 0 (length dims)) 0%nat d).
  rewrite seq_nth by exact Hd. cbn [Nat.add]. rewrite E. reflexivity.
Qed.

Lemma length_grads cs : length (grads cs) = length dims.
Proof. unfold grads. rewrite map_length, seq_length. reflexivity. Qed.

Lemma wall_behind cs d r : interior dims cs -> (d < length dims)%nat -> nth d cs 0 = 1 ->
  slope_at dims (times g) cs d = Some r -> r = (-1)%R.
Proof.
  intros Hi Hd E. pose proof (interior_in_box _ _ Hi) as Hb. pose proof (in_box_length _ _ Hb) as Hl.
  pose proof (interior_nth cs d Hi Hd) as Hn. unfold slope_at.
  rewrite (Hwall (shifted cs d (-1))).
  - unfold slope. destruct (times g _); congruence.
  - apply shifted_in_box; [exact Hb|exact Hd|lia].
  - intros Hi'. pose proof (interior_nth _ d Hi' Hd) as Hn'. unfold shifted in Hn'.
    rewrite app_nth2 in Hn' by (rewrite firstn_length; lia). rewrite firstn_length in Hn'.
    replace (d - Nat.min d (length cs))%nat with 0%nat in Hn' by lia. cbn [nth] in Hn'. lia.
Qed.

Lemma wall_ahead cs d r : interior dims cs -> (d < length dims)%nat -> nth d cs 0 = nth d dims 1 - 2 ->
  slope_at dims (times g) cs d = Some r -> r = 1%R.
Proof.
  intros Hi Hd E. pose proof (interior_in_box _ _ Hi) as Hb. pose proof (in_box_length _ _ Hb) as Hl.
  pose proof (interior_nth cs d Hi Hd) as Hn. unfold slope_at.
  rewrite (Hwall (shifted cs d 1)).
  - unfold slope. destruct (times g _); congruence.
  - apply shifted_in_box; [exact Hb|exact Hd|lia].
  - intros Hi'. pose proof (interior_nth _ d Hi' Hd) as Hn'. unfold shifted in Hn'.
    rewrite app_nth2 in Hn' by (rewrite firstn_length; lia). rewrite firstn_length in Hn'.
    replace (d - Nat.min d (length cs))%nat with 0%nat in Hn' by lia. cbn [nth] in Hn'. lia.
Qed.

Lemma ratio_bound r M : (Rabs r <= M -> 0 < M -> -1 <= s * r / M <= 1)%R.
Proof.
  intros Hr HM. assert (Hq : (-1 <= r / M <= 1)%R).
  { assert (A : (- M <= r <= M)%R) by (revert Hr; unfold Rabs; destruct (Rcase_abs r); lra).
    split; [apply Rmult_le_reg_r with M|apply Rmult_le_reg_r with M]; try exact HM;
      unfold Rdiv; rewrite Rmult_assoc, Rinv_l by lra; lra. }
  replace (s * r / M)%R with (s * (r / M))%R by (unfold Rdiv; ring). nra.
Qed.

Lemma one_step cs (p : list R) : interior dims cs -> nearest p cs -> times g (cell_number dims cs) <> Some 0%R ->
  ~ stuck dims (times g) cs ->
  exists p' cs' m (ys : list XR),
    gd_gradient g (cell_number dims cs) = Ok (ys, m) /\
    map (fun px => gd_move (XFin s : XR) m (fst px) (snd px)) (combine (map XFin p : list XR) ys) = (map XFin p' : list XR) /\
    mapM gd_round (map XFin p' : list XR) = Ok cs' /\
    descent_step dims (times g) s p cs p' cs' /\ interior dims cs' /\ nearest p' cs'.
Proof.
  intros Hi Hn H0 Hst. pose proof (interior_in_box _ _ Hi) as Hb. pose proof (in_box_length _ _ Hb) as Hl.
  assert (Hlp : length p = length cs) by (exact (F2_length _ _ _ Hn)).
  assert (Hall : forall d, (d < length dims)%nat -> exists r, slope_at dims (times g) cs d = Some r).
  { intros d Hd. destruct (slope_at dims (times g) cs d) as [r|] eqn:E; [eauto|]. exfalso. apply Hst.
    split; [exact H0|]. left; eauto. }
  assert (Eys : map (fun d => comp (slope_at dims (times g) cs d)) (seq 0 (length dims)) = (map XFin (grads cs) : list XR)).
  { unfold grads. rewrite map_map. apply map_ext_in. intros d Hd. apply in_seq in Hd.
    destruct (Hall d ltac:(lia)) as [r Er]. rewrite Er. reflexivity. }
  destruct (gradient_X g dims (cell_number dims cs) _ Hp ltac:(pose proof (box_size_pos dims Hp); lia) Hne (proj1 Hg) (components cs Hi)) as [m [Eg [Hm _]]].
  rewrite Eys in Eg, Hm. destruct (Hm (grads cs) eq_refl) as [M [-> [HM1 HM2]]].
  assert (HF : Forall2 (fun d r => slope_at dims (times g) cs d = Some r) (seq 0 (length dims)) (grads cs)).
  { apply (F2_intro _ _ _ 0%nat 0%R); [rewrite length_grads, seq_length; reflexivity|].
    intros d Hd. rewrite seq_length in Hd. rewrite seq_nth by exact Hd. cbn [Nat.add].
    destruct (Hall d Hd) as [r Er]. rewrite (nth_grads cs d r Hd Er). exact Er. }
  assert (HM : (0 < Rabs M)%R).
  { destruct (Rle_lt_dec (Rabs M) 0) as [L|L]; [|exact L]. exfalso. apply Hst. split; [exact H0|]. right.
    intros d Hd. destruct (Hall d Hd) as [r Er]. rewrite Er. f_equal.
    assert (In r (grads cs)). { rewrite <- (nth_grads cs d r Hd Er). apply nth_In. rewrite length_grads; exact Hd. }
    specialize (HM1 r H). revert HM1. unfold Rabs at 1. destruct (Rcase_abs r); lra. }
  assert (HM0 : M <> 0%R) by (intros ->; rewrite Rabs_R0 in HM; lra).
  set (p' := map (fun xr => fst xr - s * snd xr / Rabs M)%R (combine p (grads cs))).
  set (cs' := map (fun x => Rfloor (x + 1 / 2)) p').
  assert (Lp' : length p' = length dims).
  { unfold p'. rewrite map_length, combine_length, length_grads. lia. }
  assert (Hnear : nearest p' cs').
  { unfold nearest, cs'. clearbody p'. clear. induction p' as [|x r IH]; cbn [map]; constructor; [|exact IH].
    pose proof (floor_spec (x + 1 / 2)) as F. lra. }
  assert (Hint : interior dims cs').
  { apply (F2_intro _ _ _ 1 0); [unfold cs'; rewrite map_length; lia|]. intros d Hd.
    pose proof (F2_nth _ _ _ 0%R 0 d Hnear ltac:(lia)) as Nd. cbn beta in Nd.
    pose proof (F2_nth _ _ _ 0%R 0 d Hn ltac:(lia)) as Od. cbn beta in Od.
    destruct (Hall d Hd) as [r Er]. pose proof (nth_grads cs d r Hd Er) as Eg'.
    assert (Ep : nth d p' 0%R = (nth d p 0 - s * r / Rabs M)%R).
    { unfold p'. rewrite nth_move by (rewrite ?length_grads; lia). rewrite Eg'. reflexivity. }
    rewrite Ep in Nd. pose proof (interior_nth cs d Hi Hd) as Id.
    assert (Hr : (Rabs r <= Rabs M)%R). { apply HM1. rewrite <- Eg'. apply nth_In. rewrite length_grads; exact Hd. }
    pose proof (ratio_bound r (Rabs M) Hr HM) as RB.
    set (c := nth d cs 0) in *. set (c' := nth d cs' 0) in *.
    assert (Hlo : c - 1 <= c').
    { assert (Q : (IZR (c - 2) < IZR (c'))%R) by (rewrite minus_IZR; lra). apply lt_IZR in Q; lia. }
    assert (Hhi : c' <= c + 1).
    { assert (Q : (IZR (c') < IZR (c + 2))%R) by (rewrite plus_IZR; lra). apply lt_IZR in Q; lia. }
    assert (HiM : (0 < s * / Rabs M)%R) by (apply Rmult_lt_0_compat; [exact Hs0|apply Rinv_0_lt_compat, HM]).
    split.
    - destruct (Z.eq_dec (c) 1) as [E1|E1]; [|lia].
      pose proof (wall_behind cs d r Hi Hd E1 Er) as ->.
      assert (Q : (IZR (c - 1) < IZR (c'))%R) by (rewrite minus_IZR; unfold Rdiv in *; nra). apply lt_IZR in Q; lia.
    - destruct (Z.eq_dec (c) (nth d dims 1 - 2)) as [E1|E1]; [|lia].
      pose proof (wall_ahead cs d r Hi Hd E1 Er) as ->.
      assert (Q : (IZR (c') < IZR (c + 1))%R) by (rewrite plus_IZR; unfold Rdiv in *; nra). apply lt_IZR in Q; lia. }
  exists p', cs', (XFin M : XR), (map XFin (grads cs) : list XR). split; [exact Eg|]. split.
  { unfold p'. clear - HM0 Hl Hlp. pose proof (length_grads cs) as Lg. revert Lg. generalize (grads cs) as gs. intros gs Lg.
    assert (L : length p = length gs) by lia. clear Lg Hl Hlp. revert gs L.
    induction p as [|x p IH]; intros [|y gs] L; cbn in L; try lia; [reflexivity|].
    cbn [map combine fst snd]. rewrite move_X by exact HM0. f_equal. apply IH. lia. }
  split.
  { assert (HB : Forall (fun z => 0 <= z <= 2147483647) cs').
    { apply Forall_forall. intros z Hz. apply (In_nth _ _ 0) in Hz. destruct Hz as [d [Hd <-]].
      assert (Hd' : (d < length dims)%nat) by (unfold cs' in Hd; rewrite map_length in Hd; lia).
      pose proof (interior_nth cs' d Hint Hd') as Q.
      assert (B : nth d dims 1 <= box_size dims).
      { pose proof (stride_S dims d Hd') as S1. pose proof (stride_le dims (S d) Hp). pose proof (stride_pos dims d Hp). nia. }
      lia. }
    apply mapM_F2. clear - Hnear HB. clearbody cs' p'. revert HB. induction Hnear as [|x c p' cs' Hx Hr IH]; intros HB; cbn [map]; constructor.
    - apply gd_round_X; [exact Hx|]. inversion HB; assumption.
    - apply IH. inversion HB; assumption. }
  split; [|split; assumption].
  split; [exact H0|]. exists (grads cs), (Rabs M). split; [exact HF|]. split; [split; assumption|]. split; [exact HM|]. split; [reflexivity|exact Hnear].
Qed.

Lemma stuck_step cs (p : list R) : interior dims cs -> nearest p cs -> stuck dims (times g) cs ->
  exists m (ys : list XR), gd_gradient g (cell_number dims cs) = Ok (ys, m) /\
    mapM gd_round (map (fun px => gd_move (XFin s : XR) m (fst px) (snd px)) (combine (map XFin p : list XR) ys)) = Fail UB.
Proof.
  intros Hi Hn [H0 Hst]. pose proof (interior_in_box _ _ Hi) as Hb. pose proof (in_box_length _ _ Hb) as Hl.
  assert (Hlp : length p = length cs) by (exact (F2_length _ _ _ Hn)).
  destruct (gradient_X g dims (cell_number dims cs) _ Hp ltac:(pose proof (box_size_pos dims Hp); lia) Hne (proj1 Hg) (components cs Hi)) as [m [Eg [Hm _]]].
  set (ys := map (fun d => comp (slope_at dims (times g) cs d)) (seq 0 (length dims))) in *.
  exists m, ys. split; [exact Eg|].
  destruct (mapM gd_round _) as [zs|e] eqn:E.
  2: { apply mapM_fail in E. destruct E as [x [_ Hx]]. apply gd_round_fail in Hx. congruence. }
  exfalso. apply mapM_F2 in E.
  assert (Hget : forall d, (d < length dims)%nat -> exists r, gd_move (XFin s : XR) m (XFin (nth d p 0%R)) (comp (slope_at dims (times g) cs d)) = XFin r).
  { intros d Hd.
    assert (E1 : nth_error (map XFin p : list XR) d = Some (XFin (nth d p 0%R))).
    { rewrite nth_error_map, (nth_error_nth' p 0%R) by lia. reflexivity. }
    assert (E2 : nth_error ys d = Some (comp (slope_at dims (times g) cs d))).
    { unfold ys. rewrite nth_error_map, (nth_error_nth' _ 0%nat) by (rewrite seq_length; lia). rewrite seq_nth by exact Hd. reflexivity. }
    pose proof (nth_error_move (fun px => gd_move (XFin s : XR) m (fst px) (snd px)) _ _ d _ _ E1 E2) as E3.
    destruct (F2_nth_error _ _ _ d _ E E3) as [z [_ Hz]]. cbn [fst snd] in Hz. exact (gd_round_finite _ _ Hz). }
  destruct Hst as [[d [Hd Ed]]|Hz].
  - destruct (Hget d Hd) as [r Er]. rewrite Ed in Er. cbn [comp] in Er. rewrite (move_bad s m _ XNaN (or_intror eq_refl)) in Er. discriminate.
  - assert (Eys : ys = (map XFin (map (fun _ => 0%R) dims) : list XR)).
    { unfold ys. rewrite map_map. transitivity (map (fun _ : nat => XFin 0 : XR) (seq 0 (length dims))).
      - apply map_ext_in. intros d Hd. apply in_seq in Hd. rewrite Hz by lia. reflexivity.
      - generalize 0%nat as k. clear. induction dims as [|x r IH]; intros k; cbn; [reflexivity|]. f_equal. apply IH. }
    destruct (Hm _ Eys) as [M [-> [_ [r [Hr EM]]]]]. apply in_map_iff in Hr. destruct Hr as [? [<- _]].
    rewrite Rabs_R0 in EM. assert (M = 0%R). { destruct (Req_dec M 0) as [Q|Q]; [exact Q|]. apply Rabs_no_R0 in Q. lra. } subst M.
    assert (L0 : (0 < length dims)%nat) by (destruct dims; [congruence|cbn; lia]).
    destruct (Hget 0%nat L0) as [r Er]. rewrite (Hz 0%nat L0) in Er. cbn [comp] in Er. rewrite move_zero in Er. discriminate.
Qed.

Lemma time_zero_dec i : times g i = Some 0%R \/ times g i <> Some 0%R.
Proof. destruct (times g i) as [r|]; [|right; discriminate]. destruct (Req_EM_T r 0) as [->|]; [left; reflexivity|right; congruence]. Qed.

Lemma stuck_dec cs : stuck dims (times g) cs \/ ~ stuck dims (times g) cs.
Proof.
  unfold stuck. destruct (time_zero_dec (cell_number dims cs)) as [E|E]; [right; intros [H _]; contradiction|].
  assert (A : forall n, (exists d, (d < n)%nat /\ slope_at dims (times g) cs d = None) \/ ~ (exists d, (d < n)%nat /\ slope_at dims (times g) cs d = None)).
  { induction n as [|n [IH|IH]].
    - right; intros [d [Hd _]]; lia.
    - left. destruct IH as [d [Hd Ed]]. exists d; split; [lia|exact Ed].
    - destruct (slope_at dims (times g) cs n) eqn:En.
      + right. intros [d [Hd Ed]]. destruct (Nat.eq_dec d n) as [->|]; [congruence|]. apply IH. exists d; split; [lia|exact Ed].
      + left. exists n; split; [lia|exact En]. }
  assert (B : forall n, (forall d, (d < n)%nat -> slope_at dims (times g) cs d = Some 0%R) \/ ~ (forall d, (d < n)%nat -> slope_at dims (times g) cs d = Some 0%R)).
  { induction n as [|n [IH|IH]].
    - left; intros d Hd; lia.
    - assert (Q : slope_at dims (times g) cs n = Some 0%R \/ slope_at dims (times g) cs n <> Some 0%R).
      { destruct (slope_at dims (times g) cs n) as [r|]; [|right; discriminate]. destruct (Req_EM_T r 0) as [->|]; [left; reflexivity|right; congruence]. }
      destruct Q as [Q|Q].
      + left. intros d Hd. destruct (Nat.eq_dec d n) as [->|]; [exact Q|apply IH; lia].
      + right. intros H. apply Q, H. lia.
    - right. intros H. apply IH. intros d Hd. apply H. lia. }
  destruct (A (length dims)) as [A'|A']; [left; split; [exact E|left; exact A']|].
  destruct (B (length dims)) as [B'|B']; [left; split; [exact E|right; exact B']|].
  right. intros [_ [H|H]]; contradiction.
Qed.

Lemma loop_X cs0 : forall fuel pts p cells cs path vel,
  descent dims (times g) s cs0 (pts ++ [p]) (cells ++ [cs]) -> interior dims cs -> nearest p cs ->
  (exists pts' cells' cs' vs, descent dims (times g) s cs0 (pts ++ p :: pts') (cells ++ cs :: cells') /\
      length pts' = length cells' /\
      last (cs :: cells') cs = cs' /\ times g (cell_number dims cs') = Some 0%R /\ interior dims cs' /\
      Forall (interior dims) cells' /\ Forall2 nearest pts' cells' /\
      Forall2 (fun c v => exists x, getCell g (cell_number dims c) = Ok x /\ c_occ x = v) (removelast (cs :: cells')) vs /\
      gd_loop fuel g (XFin s : XR) (map XFin p : list XR) (cell_number dims cs) path vel =
        Ok (cell_number dims cs', path ++ map (fun q => map XFin q : list XR) pts', vel ++ vs)) \/
  (gd_loop fuel g (XFin s : XR) (map XFin p : list XR) (cell_number dims cs) path vel = Fail OutOfFuel /\
   exists pts' cells', descent dims (times g) s cs0 (pts ++ p :: pts') (cells ++ cs :: cells') /\ length pts' = fuel) \/
  (gd_loop fuel g (XFin s : XR) (map XFin p : list XR) (cell_number dims cs) path vel = Fail UB /\
   exists pts' cells' cs', descent dims (times g) s cs0 (pts ++ p :: pts') (cells ++ cs :: cells') /\
     last (cs :: cells') cs = cs' /\ stuck dims (times g) cs').
Proof.
  induction fuel as [|fuel IH]; intros pts p cells cs path vel Hd Hi Hn.
  { right; left. split; [reflexivity|]. exists [], []. split; [exact Hd|reflexivity]. }
  pose proof (interior_in_box _ _ Hi) as Hb. pose proof (cell_number_range dims cs Hb) as Hr.
  destruct (getCell_in dims g _ Hg Hr) as [c Hc].
  assert (Ht : getArrivalTime g (cell_number dims cs) = Ok (ox (times g (cell_number dims cs)))).
  { unfold getArrivalTime. rewrite Hc. cbn [bind]. f_equal. exact (times_val g _ c Hok Hc). }
  destruct (time_zero_dec (cell_number dims cs)) as [E0|E0].
  { left. exists [], [], cs, []. split; [exact Hd|]. split; [reflexivity|]. split; [reflexivity|]. split; [exact E0|]. split; [exact Hi|].
    split; [constructor|]. split; [constructor|]. split; [constructor|].
    cbn [gd_loop]. rewrite Ht, E0. cbn [bind ox].
    assert (E : neqb (XFin 0 : XR) n0 = true) by (cbn; unfold Reqb; destruct Req_EM_T; [reflexivity|congruence]).
    rewrite E. cbn [map]. rewrite !app_nil_r. reflexivity. }
  assert (Ene : neqb (ox (times g (cell_number dims cs))) n0 = false).
  { destruct (times g (cell_number dims cs)) as [r|]; cbn; [|reflexivity]. unfold Reqb. destruct Req_EM_T; [congruence|reflexivity]. }
  destruct (stuck_dec cs) as [Hst|Hst].
  - right; right. destruct (stuck_step cs p Hi Hn Hst) as [m [ys [Eg Em]]]. split.
    + cbn [gd_loop]. rewrite Ht. cbn [bind]. rewrite Ene, Eg. cbn [bind]. rewrite Em. reflexivity.
    + exists [], [], cs. split; [exact Hd|]. split; [reflexivity|exact Hst].
  - destruct (one_step cs p Hi Hn E0 Hst) as [p' [cs' [m [ys [Eg [Em [Er [Hds [Hi' Hn']]]]]]]]].
    assert (Estep : gd_loop (S fuel) g (XFin s : XR) (map XFin p : list XR) (cell_number dims cs) path vel =
      gd_loop fuel g (XFin s : XR) (map XFin p' : list XR) (cell_number dims cs') (path ++ [map XFin p' : list XR]) (vel ++ [c_occ c])).
    { cbn [gd_loop]. rewrite Ht. cbn [bind]. rewrite Ene, Eg. cbn [bind]. rewrite Em, Er. cbn [bind]. rewrite Hc. cbn [bind].
      rewrite (proj1 Hg), coord2idx_eq; [reflexivity|exact Hne|lia|exact (interior_in_box _ _ Hi')]. }
    pose proof (descent_next _ _ _ _ _ _ _ _ _ _ Hd Hds) as Hd'.
    replace (pts ++ [p; p']) with ((pts ++ [p]) ++ [p']) in Hd' by (rewrite <- app_assoc; reflexivity).
    replace (cells ++ [cs; cs']) with ((cells ++ [cs]) ++ [cs']) in Hd' by (rewrite <- app_assoc; reflexivity).
    rewrite Estep.
    assert (R1 : forall l, (pts ++ [p]) ++ p' :: l = pts ++ p :: p' :: l) by (intros; rewrite <- app_assoc; reflexivity).
    assert (R2 : forall l, (cells ++ [cs]) ++ cs' :: l = cells ++ cs :: cs' :: l) by (intros; rewrite <- app_assoc; reflexivity).
    destruct (IH _ _ _ _ (path ++ [map XFin p' : list XR]) (vel ++ [c_occ c]) Hd' Hi' Hn') as [A|[A|A]].
    + left. destruct A as [pts' [cells' [cs2 [vs [A1 [A2 [A3 [A4 [A5 [A6 [A7 [A8 A9]]]]]]]]]]]].
      rewrite R1, R2 in A1. exists (p' :: pts'), (cs' :: cells'), cs2, (c_occ c :: vs).
      split; [exact A1|]. split; [cbn [length]; lia|].
      split; [cbn [last]; rewrite <- A3; clear; revert cs cs'; induction cells' as [|x r IH]; intros; [reflexivity|cbn [last] in *; destruct r; [reflexivity|apply IH]]|].
      split; [exact A4|]. split; [exact A5|]. split; [constructor; assumption|]. split; [constructor; assumption|]. split.
      * change (removelast (cs :: cs' :: cells')) with (cs :: removelast (cs' :: cells')). constructor; [exists c; split; [exact Hc|reflexivity]|exact A8].
      * rewrite A9. f_equal. f_equal; [f_equal|]; rewrite <- app_assoc; reflexivity.
    + right; left. destruct A as [A1 [pts' [cells' [A2 A3]]]]. split; [exact A1|]. rewrite R1, R2 in A2.
      exists (p' :: pts'), (cs' :: cells'). split; [exact A2|cbn [length]; lia].
    + right; right. destruct A as [A1 [pts' [cells' [cs2 [A2 [A3 A4]]]]]]. split; [exact A1|]. rewrite R1, R2 in A2.
      exists (p' :: pts'), (cs' :: cells'), cs2. split; [exact A2|]. split; [|exact A4].
      cbn [last]; rewrite <- A3; clear; revert cs cs'; induction cells' as [|x r IH]; intros; [reflexivity|cbn [last] in *; destruct r; [reflexivity|apply IH]].
Qed.
End Interior.

(** Prop_GD.v - property theorems C42: path extraction by gradient descent. *)
From Coq Require Import Reals Lra.
From Verif Require Import Base BaseFacts Num NumXR NumLaws Grid GridFacts GridMore GridUpd FMMModel SolverModel FM2Model GDModel
  Spec DescentSpec Obs XGrid EikR EikX Solution GDFacts.
Open Scope Z_scope.

(** ** the auxiliary array *)

(** Read strictly, the stride array is overrun whatever the map. *)
Theorem C42_array_overrun : forall dims, gd_strides_strict dims = Fail UB.
Proof.
  intros [|k0 r]; [reflexivity|]. unfold gd_strides_strict. set (dims := k0 :: r).
  assert (UBV : forall {A} (l : list A) i x e, vset l i x = Fail e -> e = UB).
  { intros A l i x e. unfold vset. destruct (_ && _); congruence. }
  assert (UBG : forall {A} (l : list A) i e, vget l i = Fail e -> e = UB) by (intros A l i e; apply vget_fail).
  set (F := fun d i => k <- vget dims i ;; p <- vget d (i - 1) ;; vset d i (u32 (k * p))).
  assert (HF : forall l d e, foldM F l d = Fail e -> e = UB).
  { induction l as [|i l IH]; intros d e; cbn [foldM]; [discriminate|]. unfold F at 1.
    destruct (vget dims i) as [k|] eqn:E1; cbn [bind]; [|intros H; injection H as <-; eapply UBG; exact E1].
    destruct (vget d (i - 1)) as [p|] eqn:E2; cbn [bind]; [|intros H; injection H as <-; eapply UBG; exact E2].
    destruct (vset d i _) as [d'|] eqn:E3; cbn [bind]; [apply IH|intros H; injection H as <-; eapply UBV; exact E3]. }
  destruct (vset (repeat 0 (length dims - 1)) 0 k0) as [d0|e] eqn:E0; cbn [bind]; [|f_equal; eapply UBV; exact E0].
  destruct (foldM F _ d0) as [d|e] eqn:E; [|f_equal; eapply HF; exact E].
  exfalso. assert (Hset : forall (l : list Z) i x l', vset l i x = Ok l' -> length l' = length l /\ 0 <= i < Z.of_nat (length l)).
  { intros l i x l'. unfold vset. destruct (Z.leb_spec 0 i); [|discriminate]. destruct (Z.ltb_spec i (Z.of_nat (length l))); [|discriminate].
    cbn [andb]. intros Hq; injection Hq as <-. rewrite length_lset. auto. }
  destruct (Hset _ _ _ _ E0) as [L0 B0]. rewrite repeat_length in L0, B0. unfold dims in B0. cbn [length] in B0.
  assert (Es : map Z.of_nat (seq 1 (length dims - 1)) = map Z.of_nat (seq 1 (length r - 1)) ++ [Z.of_nat (length r)]).
  { unfold dims. cbn [length]. replace (S (length r) - 1)%nat with (S (length r - 1)) by lia. rewrite seq_S, map_app. cbn [map].
    repeat f_equal. lia. }
  rewrite Es, foldM_app in E. apply bind_ok in E. destruct E as [d1 [E1 E2]].
  assert (L1 : length d1 = length r).
  { refine (foldM_inv_partial (fun d => length d = length r) F _ d0 d1 _ _ E1).
    - rewrite L0. unfold dims. cbn [length]. lia.
    - intros q i q' _ Hl Hq. unfold F in Hq. apply bind_ok in Hq. destruct Hq as [k [_ Hq]]. apply bind_ok in Hq. destruct Hq as [p [_ Hq]].
      destruct (Hset _ _ _ _ Hq) as [-> _]. exact Hl. }
  cbn [foldM] in E2. apply bind_ok in E2. destruct E2 as [d2 [E2 _]]. unfold F in E2.
  apply bind_ok in E2. destruct E2 as [k [_ E2]]. apply bind_ok in E2. destruct E2 as [p [_ E2]].
  destruct (Hset _ _ _ _ E2) as [_ B]. lia.
Qed.

(** ** the shape of the result, any arithmetic *)
Theorem C42_path_shape :
  forall (N : Num) (g : grid N) fuel idx path vel (step : N) idx' path' vel',
  gd_apply fuel g idx path vel step = Ok (idx', path', vel') ->
  exists cs cs' t pts v0 vs v1,
    idx2coord (g_sh g) idx = Ok cs /\ idx2coord (g_sh g) idx' = Ok cs' /\
    time_is g idx' t /\ neqb t n0 = true /\
    path' = path ++ [map nofZ cs] ++ pts ++ [map nofZ cs'] /\ vel' = vel ++ [v0] ++ vs ++ [v1] /\ length pts = length vs.
Proof.
  intros N g fuel idx path vel step idx' path' vel' H. unfold gd_apply in H.
  apply bind_ok in H. destruct H as [cs [Hcs H]]. apply bind_ok in H. destruct H as [c [Hc H]].
  apply bind_ok in H. destruct H as [[[i2 p2] v2] [HL H]]. apply bind_ok in H. destruct H as [cs' [Hcs' H]].
  apply bind_ok in H. destruct H as [c' [Hc' H]]. injection H as <- <- <-.
  assert (HLoop : forall fuel point idx path vel, gd_loop fuel g step point idx path vel = Ok (i2, p2, v2) ->
    exists pts vs t, p2 = path ++ pts /\ v2 = vel ++ vs /\ length pts = length vs /\ time_is g i2 t /\ neqb t n0 = true).
  { clear. induction fuel as [|fuel IH]; intros point idx path vel H; [discriminate|]. cbn [gd_loop] in H.
    apply bind_ok in H. destruct H as [t [Ht H]]. destruct (neqb t n0) eqn:Et.
    - injection H as <- <- <-. exists [], [], t. rewrite !app_nil_r. auto.
    - apply bind_ok in H. destruct H as [[xs m] [_ H]]. cbv zeta in H. apply bind_ok in H. destruct H as [zs [_ H]].
      apply bind_ok in H. destruct H as [c [_ H]]. apply bind_ok in H. destruct H as [j [_ H]].
      apply IH in H. destruct H as [pts [vs [t' [-> [-> [Hl [HT HZ]]]]]]].
      eexists (_ :: pts), (_ :: vs), t'. rewrite <- !app_assoc. cbn [app length]. repeat split; auto. }
  destruct (HLoop _ _ _ _ _ HL) as [pts [vs [t [-> [-> [Hl [HT HZ]]]]]]].
  exists cs, cs', t, pts, (c_occ c), vs, (c_occ c'). rewrite <- !app_assoc. cbn [app]. repeat split; auto.
Qed.

(** as many velocities as points: what savePathVelocity indexes stays in range *)
Theorem C42_one_velocity_per_point :
  forall (N : Num) (g : grid N) fuel idx (step : N) idx' path' vel',
  gd_apply fuel g idx [] [] step = Ok (idx', path', vel') -> length path' = length vel' /\ (2 <= length path')%nat.
Proof.
  intros N g fuel idx step idx' path' vel' H. destruct (C42_path_shape N g fuel idx [] [] step _ _ _ H) as [cs [cs' [t [pts [v0 [vs [v1 [_ [_ [_ [_ [-> [-> Hl]]]]]]]]]]]]].
  cbn [app length]. rewrite !app_length. cbn [length]. lia.
Qed.

(** ** step lengths, exact arithmetic, any map *)

(** [walk s pts]: consecutive points differ by at most |s| in every dimension, and by exactly
    |s| in some dimension *)
Inductive walk (s : R) : list (list R) -> Prop :=
| walk_one p : walk s [p]
| walk_more p q pts : length p = length q ->
    (forall d, (d < length p)%nat -> (Rabs (nth d q 0 - nth d p 0) <= Rabs s)%R) ->
    (exists d, (d < length p)%nat /\ Rabs (nth d q 0 - nth d p 0)%R = Rabs s) ->
    walk s (q :: pts) -> walk s (p :: q :: pts).

Lemma gradient_length {N : Num} (g : grid N) i xs m : gd_gradient g i = Ok (xs, m) -> length (s_d (g_sh g)) = length (s_dims (g_sh g)) -> length xs = length (s_dims (g_sh g)).
Proof.
  intros H Hl. unfold gd_gradient in H. destruct (s_dims (g_sh g)) as [|k r] eqn:E; [discriminate|].
  apply bind_ok in H. destruct H as [x0 [_ H]].
  assert (Q : forall l xs0 m0 xs m, foldM (fun '(xs, m) st => x <- gd_component g i st ;; Ok (xs ++ [x], if nltb (nabs m) (nabs x) then x else m)) l (xs0, m0) = Ok (xs, m) ->
     length xs = (length xs0 + length l)%nat).
  { clear. induction l as [|st l IH]; intros xs0 m0 xs m H; cbn [foldM] in H; [injection H as -> ->; cbn; lia|].
    apply bind_ok in H. destruct H as [[xs1 m1] [H1 H]]. apply bind_ok in H1. destruct H1 as [x [_ H1]]. injection H1 as <- <-.
    apply IH in H. rewrite H, app_length. cbn [length]. lia. }
  apply Q in H. rewrite length_removelast, Hl in H. cbn [length] in *. lia.
Qed.

Lemma not_inf (y : XR) : (if nisinf y then sgn y else y) <> XPInf /\ (if nisinf y then sgn y else y) <> XNInf.
Proof. destruct y as [q| | |]; split; intros Q; vm_compute in Q; discriminate Q. Qed.

Lemma gradient_max (g : grid XR) i xs m : gd_gradient g i = Ok (xs, m) ->
  (forall x, In x xs -> x <> XPInf /\ x <> XNInf) /\ (hd_error xs = Some (XNaN : XR) -> m = XNaN) /\
  (forall rs, xs = (map XFin rs : list XR) -> exists M, m = XFin M /\ max_abs rs (Rabs M)).
Proof.
  intros H. unfold gd_gradient in H. destruct (s_dims (g_sh g)) as [|k r]; [discriminate|].
  apply bind_ok in H. destruct H as [x0 [H0 H]].
  assert (Hc : forall st x, gd_component g i st = Ok x -> x <> XPInf /\ x <> XNInf).
  { intros st x Hx. unfold gd_component in Hx. apply bind_ok in Hx. destruct Hx as [a [_ Hx]]. apply bind_ok in Hx. destruct Hx as [b [_ Hx]].
    cbv zeta in Hx. inversion Hx as [Hx']. apply not_inf. }
  assert (HF : exists ys, Forall2 (fun st y => gd_component g i st = Ok y) (removelast (s_d (g_sh g))) ys).
  { revert H. generalize (removelast (s_d (g_sh g))) as l. generalize ([x0]) as xs0, (nabs x0) as m0. clear. intros xs0 m0 l. revert xs0 m0.
    induction l as [|st l IH]; intros xs0 m0 H; cbn [foldM] in H; [exists []; constructor|].
    apply bind_ok in H. destruct H as [[xs1 m1] [H1 H]]. apply bind_ok in H1. destruct H1 as [x [Hx H1]].
    destruct (IH _ _ H) as [ys Hys]. exists (x :: ys). constructor; assumption. }
  destruct HF as [ys Hys]. destruct (gradient_fold g i _ [x0] (nabs x0) ys Hys) as [m' [E [Hn Hf]]].
  assert (E1 : Ok (xs, m) = Ok ([x0] ++ ys, m')) by (transitivity (foldM (fun '(xs, m) st => x <- gd_component g i st ;; Ok (xs ++ [x], if nltb (nabs m) (nabs x) then x else m)) (removelast (s_d (g_sh g))) ([x0], nabs x0)); [symmetry; exact H|exact E]).
  inversion E1; subst xs m'. clear E1. cbn [app]. split; [|split].
  - intros x [<-|Hx]; [eapply Hc; exact H0|]. clear - Hc Hys Hx. induction Hys; [contradiction|]. destruct Hx as [<-|Hx]; [eapply Hc; eassumption|auto].
  - cbn [hd_error]. intros Q. assert (x0 = XNaN) by congruence. subst x0. apply Hn. reflexivity.
  - intros rs Ers. destruct rs as [|q rs]; [discriminate|].
    pose proof (f_equal (hd (XNaN : XR)) Ers) as Ey. pose proof (f_equal (@tl XR) Ers) as Et. cbn [hd tl map] in Ey, Et. subst x0.
    destruct (Hf (Rabs q) rs eq_refl Et) as [M [-> [A [B D]]]]. rewrite Rabs_Rabsolu in A. exists M. split; [reflexivity|]. split.
    + intros r0 [<-|Hq]; auto.
    + destruct D as [->|D]; [exists q; split; [left; reflexivity|now rewrite Rabs_Rabsolu]|exists M; split; [right; exact D|reflexivity]].
Qed.


Theorem C42_steps_bounded :
  forall dims (g : grid XR) fuel idx path vel s idx' path' vel',
  proper dims -> box_size dims < 4294967296 -> g_sh g = mk_shape dims ->
  gd_apply fuel g idx path vel (XFin s : XR) = Ok (idx', path', vel') ->
  exists (p0 : list R) pts (last : list XR), path' = path ++ map (fun q => map XFin q : list XR) (p0 :: pts) ++ [last] /\ walk s (p0 :: pts).
Proof.
  intros dims g fuel idx path vel s idx' path' vel' Hp Hb Hs H.
  assert (Hd : s_dims (g_sh g) = dims /\ length (s_d (g_sh g)) = length dims).
  { rewrite Hs, mk_shape_eq by assumption. cbn [s_dims s_d]. rewrite length_pps. auto. }
  destruct Hd as [Hd1 Hd2].
  unfold gd_apply in H. apply bind_ok in H. destruct H as [cs [Hcs H]]. apply bind_ok in H. destruct H as [c [Hc H]].
  apply bind_ok in H. destruct H as [[[i2 p2] v2] [HL H]]. apply bind_ok in H. destruct H as [cs' [Hcs' H]].
  apply bind_ok in H. destruct H as [c' [Hc' H]]. injection H as <- <- <-.
  assert (Ecs : map nofZ cs = (map XFin (map IZR cs) : list XR)) by (rewrite map_map; reflexivity).
  assert (Lcs : length (map IZR cs) = length dims).
  { rewrite map_length. rewrite Hs, mk_shape_eq in Hcs by assumption. unfold idx2coord in Hcs. cbn [s_d] in Hcs.
    pose proof (length_pps 1 dims) as Lp. rewrite <- rev_length in Lp. destruct (rev (pps 1 dims)) as [|d0 [|d1 ds]]; try discriminate.
    apply bind_ok in Hcs. destruct Hcs as [l [Hl Hcs]]. injection Hcs as <-. rewrite rev_length.
    assert (Q : forall ds aux l, idx2coord_loop aux ds = Ok l -> length l = S (length ds)).
    { clear. induction ds as [|d ds IH]; intros aux l H; cbn [idx2coord_loop] in H; [injection H as <-; reflexivity|].
      destruct (d =? 0); [discriminate|]. apply bind_ok in H. destruct H as [q [Hq H]]. injection H as <-. cbn [length]. f_equal. eapply IH; exact Hq. }
    rewrite (Q _ _ _ Hl). cbn [length] in Lp |- *. lia. }
  rewrite Ecs in HL.
  assert (HLoop : forall fuel (p : list R) idx path vel, length p = length dims -> gd_loop fuel g (XFin s : XR) (map XFin p : list XR) idx path vel = Ok (i2, p2, v2) ->
    exists pts, p2 = path ++ map (fun q => map XFin q : list XR) pts /\ walk s (p :: pts)).
  { clear - Hd1 Hd2. induction fuel as [|fuel IH]; intros p idx path vel Lp H; [discriminate|]. cbn [gd_loop] in H.
    apply bind_ok in H. destruct H as [t [Ht H]]. destruct (neqb t n0) eqn:Et.
    - injection H as <- <- <-. exists []. cbn [map]. rewrite app_nil_r. split; [reflexivity|constructor].
    - apply bind_ok in H. destruct H as [[xs m] [Hx H]]. cbv zeta in H. apply bind_ok in H. destruct H as [zs [Hz H]].
      apply bind_ok in H. destruct H as [c [_ H]]. apply bind_ok in H. destruct H as [j [_ H]].
      pose proof (gradient_length g idx xs m Hx ltac:(congruence)) as Lx. rewrite Hd1 in Lx.
      destruct (gradient_max g idx xs m Hx) as [Hni [Hnan Hmax]].
      apply mapM_F2 in Hz.
      assert (Hall : forall d x, nth_error xs d = Some x -> exists r, gd_move (XFin s : XR) m (XFin (nth d p 0%R)) x = XFin r).
      { intros d x Ex. assert (Ld : (d < length p)%nat) by (rewrite Lp, <- Lx; apply nth_error_Some; congruence).
        assert (E1 : nth_error (map XFin p : list XR) d = Some (XFin (nth d p 0%R))) by (rewrite nth_error_map, (nth_error_nth' p 0%R) by exact Ld; reflexivity).
        pose proof (nth_error_move (fun px => gd_move (XFin s : XR) m (fst px) (snd px)) _ _ d _ _ E1 Ex) as E3.
        destruct (F2_nth_error _ _ _ d _ Hz E3) as [z [_ Hz']]. cbn [fst snd] in Hz'. exact (gd_round_finite _ _ Hz'). }
      assert (Hfin : exists rs, xs = (map XFin rs : list XR)).
      { assert (Q : forall x, In x xs -> exists r, x = XFin r).
        { intros x Hin. destruct (Hni x Hin) as [A B]. apply In_nth_error in Hin. destruct Hin as [d Ed]. destruct (Hall d x Ed) as [r Er].
          destruct x as [r0| | |]; [eauto|congruence|congruence|]. rewrite (move_bad s m _ XNaN (or_intror eq_refl)) in Er. discriminate. }
        clear - Q. induction xs as [|x xs IH]; [exists []; reflexivity|]. destruct (Q x (or_introl eq_refl)) as [r ->].
        destruct IH as [rs ->]; [intros y Hy; apply Q; right; exact Hy|]. exists (r :: rs). reflexivity. }
      destruct Hfin as [rs ->]. destruct (Hmax rs eq_refl) as [M [-> [HM1 [rM [HM2 HM3]]]]].
      assert (HM0 : M <> 0%R).
      { intros ->. rewrite Rabs_R0 in *. assert (rM = 0%R) by (destruct (Req_dec rM 0) as [|Q]; [assumption|apply Rabs_no_R0 in Q; lra]). subst rM.
        apply In_nth_error in HM2. destruct HM2 as [d Ed]. destruct (Hall d (XFin 0 : XR)) as [r Er]; [rewrite nth_error_map, Ed; reflexivity|].
        rewrite move_zero in Er. discriminate. }
      rewrite map_length in Lx.
      set (p' := map (fun xr => fst xr - s * snd xr / Rabs M)%R (combine p rs)).
      assert (Ep' : map (fun px => gd_move (XFin s : XR) (XFin M) (fst px) (snd px)) (combine (map XFin p : list XR) (map XFin rs)) = (map XFin p' : list XR)).
      { unfold p'. assert (L : length p = length rs) by lia. clear - L HM0. revert rs L. induction p as [|x p IH]; intros [|y gs] L; cbn in L; try lia; [reflexivity|].
        cbn [map combine fst snd]. rewrite move_X by exact HM0. f_equal. apply IH. lia. }
      assert (H' : gd_loop fuel g (XFin s : XR) (map XFin p' : list XR) j (path ++ [map XFin p' : list XR]) (vel ++ [c_occ c]) = Ok (i2, p2, v2)) by (rewrite <- Ep'; exact H).
      assert (Lp' : length p' = length dims) by (unfold p'; rewrite map_length, combine_length; lia).
      destruct (IH _ _ _ _ Lp' H') as [pts [-> HW]]. exists (p' :: pts). split; [rewrite <- app_assoc; reflexivity|].
      assert (HiM : (0 < Rabs M)%R) by (apply Rabs_pos_lt, HM0).
      assert (Diff : forall d, (d < length p)%nat -> Rabs (nth d p' 0 - nth d p 0)%R = (Rabs s * (Rabs (nth d rs 0) / Rabs M))%R).
      { intros d Hd. unfold p'. rewrite nth_move by lia.
        replace (nth d p 0 - s * nth d rs 0 / Rabs M - nth d p 0)%R with (- (s * (nth d rs 0 * / Rabs M)))%R by (unfold Rdiv; ring).
        rewrite Rabs_Ropp, !Rabs_mult. unfold Rdiv. f_equal. f_equal. apply Rabs_pos_eq. apply Rlt_le, Rinv_0_lt_compat, HiM. }
      constructor; [congruence| | |exact HW].
      + intros d Hd. rewrite (Diff d Hd). rewrite <- (Rmult_1_r (Rabs s)) at 2. apply Rmult_le_compat_l; [apply Rabs_pos|].
        apply Rmult_le_reg_r with (Rabs M); [exact HiM|]. unfold Rdiv. rewrite Rmult_assoc, Rinv_l, Rmult_1_r, Rmult_1_l by lra.
        apply HM1. apply nth_In. lia.
      + apply (In_nth _ _ 0%R) in HM2. destruct HM2 as [d [Hd Ed]]. exists d. split; [lia|]. rewrite (Diff d ltac:(lia)), Ed, HM3.
        unfold Rdiv. rewrite Rinv_r, Rmult_1_r by lra. reflexivity. }
  destruct (HLoop _ _ _ _ _ Lcs HL) as [pts [-> HW]]. exists (map IZR cs), pts, (map nofZ cs'). split; [|exact HW].
  rewrite <- !app_assoc. reflexivity.
Qed.

(** ** walled maps *)

(** every border cell has an infinite time *)
Definition walled (dims : list Z) (T : time_map) : Prop :=
  forall cs, in_box dims cs -> ~ interior dims cs -> T (cell_number dims cs) = None.

(** the velocity stored at the cell with coordinates cs *)
Definition velocity_at dims (g : grid XR) (cs : list Z) (v : XR) : Prop :=
  exists c, getCell g (cell_number dims cs) = Ok c /\ c_occ c = v.

(** On a walled map, from an interior cell, with a step of at most one cell, there are only
    three outcomes: the descent arrives at a cell of time 0, never having left the interior;
    or it is still going on; or it has arrived at a cell where no direction is defined, and the
    behaviour is undefined.  The velocities are those of the starting cell and then, one
    behind the points, of every visited cell. *)
Theorem C42_walled_descent :
  forall dims (g : grid XR) s cs0 fuel path vel,
  shape_ok dims -> (2 <= length dims)%nat -> grid_ok dims g -> times_ok g -> walled dims (times g) ->
  (0 < s <= 1)%R -> interior dims cs0 ->
  (exists pts cells vs cs', descent dims (times g) s cs0 pts cells /\ last cells cs0 = cs' /\
     times g (cell_number dims cs') = Some 0%R /\
     Forall (interior dims) cells /\ Forall2 nearest pts cells /\ Forall2 (velocity_at dims g) (cs0 :: cells) vs /\
     gd_apply fuel g (cell_number dims cs0) path vel (XFin s : XR) =
       Ok (cell_number dims cs', path ++ map (fun p => map XFin p : list XR) (pts ++ [map IZR cs']), vel ++ vs)) \/
  (gd_apply fuel g (cell_number dims cs0) path vel (XFin s : XR) = Fail OutOfFuel /\
   exists pts cells, descent dims (times g) s cs0 pts cells /\ length pts = S fuel) \/
  (gd_apply fuel g (cell_number dims cs0) path vel (XFin s : XR) = Fail UB /\
   exists pts cells, descent dims (times g) s cs0 pts cells /\ stuck dims (times g) (last cells cs0)).
Proof.
  intros dims g s cs0 fuel path vel Hsh Hl2 Hg Hok Hw [Hs0 Hs1] Hi.
  assert (Hne : dims <> []) by (destruct dims; cbn in Hl2; [lia|discriminate]).
  pose proof (interior_in_box _ _ Hi) as Hb. pose proof (cell_number_range dims cs0 Hb) as Hr.
  pose proof (dims2_proper dims (proj1 Hsh)) as Hp. pose proof (proj2 Hsh) as H2.
  destruct (getCell_in dims g _ Hg Hr) as [c Hc].
  assert (Hn0 : nearest (map IZR cs0) cs0) by (unfold nearest; clear; induction cs0; cbn; constructor; [lra|assumption]).
  assert (Eidx : forall cs, in_box dims cs -> idx2coord (g_sh g) (cell_number dims cs) = Ok cs).
  { intros cs Hcs. rewrite (proj1 Hg). apply idx2coord_eq; [exact Hl2|lia|exact Hcs]. }
  assert (EnZ : forall cs, map nofZ cs = (map XFin (map IZR cs) : list XR)) by (intros cs; rewrite map_map; reflexivity).
  assert (Eapp : gd_apply fuel g (cell_number dims cs0) path vel (XFin s : XR) =
    ('(idx, path, vel) <- gd_loop fuel g (XFin s : XR) (map XFin (map IZR cs0) : list XR) (cell_number dims cs0) (path ++ [map XFin (map IZR cs0) : list XR]) (vel ++ [c_occ c]) ;;
     cs <- idx2coord (g_sh g) idx ;; c <- getCell g idx ;; Ok (idx, path ++ [map nofZ cs], vel ++ [c_occ c]))).
  { unfold gd_apply. rewrite (Eidx cs0 Hb). cbn [bind]. rewrite Hc. cbn [bind]. rewrite EnZ. reflexivity. }
  rewrite Eapp.
  destruct (loop_X dims g s Hsh Hne Hg Hok Hw Hs0 Hs1 cs0 fuel [] (map IZR cs0) [] cs0 (path ++ [map XFin (map IZR cs0) : list XR]) (vel ++ [c_occ c]))
    as [A|[A|A]]; [constructor|exact Hi|exact Hn0| | |].
  - left. destruct A as [pts' [cells' [cs' [vs [A1 [A2 [A3 [A4 [A5 [A6 [A7 [A8 A9]]]]]]]]]]]]. cbn [app] in A1.
    destruct (getCell_in dims g _ Hg (cell_number_range dims cs' (interior_in_box _ _ A5))) as [c' Hc'].
    exists (map IZR cs0 :: pts'), (cs0 :: cells'), (c_occ c :: vs ++ [c_occ c']), cs'.
    split; [exact A1|]. split; [exact A3|]. split; [exact A4|]. split; [constructor; assumption|]. split; [constructor; assumption|]. split.
    + constructor; [exists c; auto|]. rewrite (app_removelast_last cs0 (l := cs0 :: cells')) by discriminate. rewrite A3.
      apply Forall2_app; [exact A8|]. constructor; [exists c'; auto|constructor].
    + rewrite A9. cbn [bind]. rewrite (Eidx cs' (interior_in_box _ _ A5)). cbn [bind]. rewrite Hc'. cbn [bind].
      f_equal. f_equal; [f_equal|].
      * rewrite <- !app_assoc. f_equal. cbn [app map]. f_equal. rewrite map_app. cbn [map]. rewrite EnZ. reflexivity.
      * rewrite <- !app_assoc. reflexivity.
  - right; left. destruct A as [A1 [pts' [cells' [A2 A3]]]]. rewrite A1. cbn [bind]. split; [reflexivity|]. cbn [app] in A2.
    eexists _, _. split; [exact A2|]. cbn [length]. lia.
  - right; right. destruct A as [A1 [pts' [cells' [cs' [A2 [A3 A4]]]]]]. rewrite A1. cbn [bind]. split; [reflexivity|]. cbn [app] in A2.
    eexists _, _. split; [exact A2|]. rewrite A3. exact A4.
Qed.

(** ** a map on which the extraction never returns

    Four free cells inside a wall, cells 5 6 / 9 10.  From cell 5, with cell 9 the only one at
    time 0, the descent alternates between 5 and 10 for ever. *)
Theorem C42_never_returns :
  forall (g : grid XR) path vel t6 t9,
  grid_ok [4; 4] g -> times_ok g -> walled [4; 4] (times g) ->
  times g 5 <> Some 0%R -> times g 10 <> Some 0%R -> times g 6 = Some t6 -> times g 9 = Some t9 ->
  forall fuel, gd_apply fuel g 5 path vel (XFin 1 : XR) = Fail OutOfFuel.
Proof.
  intros g path vel t6 t9 Hg Hok Hw H5 H10 H6 H9 fuel.
  assert (Hsh : shape_ok [4; 4]) by (split; [repeat (constructor; [lia|]); constructor|cbn; lia]).
  assert (Hi : interior [4; 4] [1; 1]) by (repeat (constructor; [lia|]); constructor).
  assert (W : forall cs, in_box [4; 4] cs -> ~ interior [4; 4] cs -> times g (cell_number [4; 4] cs) = None) by exact Hw.
  assert (B : forall a b, 0 <= a < 4 -> 0 <= b < 4 -> a = 0 \/ a = 3 \/ b = 0 \/ b = 3 -> times g (a + 4 * b) = None).
  { intros a b Ha Hb Hab. replace (a + 4 * b) with (cell_number [4; 4] [a; b]) by (cbn [cell_number]; lia). apply W.
    - constructor; [lia|constructor; [lia|constructor]].
    - intros I. inversion I as [|? ? ? ? I1 I2]; subst. inversion I2; subst. lia. }
  assert (S5 : slope_at [4; 4] (times g) [1; 1] 0 = Some (-1)%R /\ slope_at [4; 4] (times g) [1; 1] 1 = Some (-1)%R).
  { unfold slope_at. cbn. pose proof (B 0 1 ltac:(lia) ltac:(lia) ltac:(lia)) as E4. pose proof (B 1 0 ltac:(lia) ltac:(lia) ltac:(lia)) as E1.
    cbn in E4, E1. rewrite E4, E1, H6, H9. auto. }
  assert (S10 : slope_at [4; 4] (times g) [2; 2] 0 = Some 1%R /\ slope_at [4; 4] (times g) [2; 2] 1 = Some 1%R).
  { unfold slope_at. cbn. pose proof (B 3 2 ltac:(lia) ltac:(lia) ltac:(lia)) as E4. pose proof (B 2 3 ltac:(lia) ltac:(lia) ltac:(lia)) as E1.
    cbn in E4, E1. rewrite E4, E1, H6, H9. auto. }
  assert (Inv : forall pts cells, descent [4; 4] (times g) 1 [1; 1] pts cells ->
    exists pts0 cells0 p cs, pts = pts0 ++ [p] /\ cells = cells0 ++ [cs] /\ ((p = [1; 1]%R /\ cs = [1; 1]) \/ (p = [2; 2]%R /\ cs = [2; 2]))).
  { intros pts cells D. induction D as [|pts p cells cs p' cs' D IH St].
    - exists [], [], [1; 1]%R, [1; 1]. cbn. auto.
    - exists (pts ++ [p]), (cells ++ [cs]), p', cs'. split; [rewrite <- app_assoc; reflexivity|]. split; [rewrite <- app_assoc; reflexivity|].
      destruct IH as [pts0 [cells0 [p0 [c0 [E1 [E2 IH]]]]]]. apply app_inj_tail in E1. destruct E1 as [_ <-]. apply app_inj_tail in E2. destruct E2 as [_ <-].
      destruct St as [_ [gs [M [HF [[HM1 [r [Hr HM]]] [HM0 [Ep' Hn]]]]]]]. cbn [length seq] in HF.
      inversion HF as [|? g0 ? ? G0 HF']; subst. inversion HF' as [|? g1 ? ? G1 HF'']; subst. inversion HF''; subst.
      assert (Near : forall x y (cs' : list Z) a b, nearest [x; y] cs' -> (x = IZR a)%R -> (y = IZR b)%R -> cs' = [a; b]).
      { intros x y l a b Hq Hx Hy. inversion Hq as [|? c1 ? ? N1 Hq']; subst. inversion Hq' as [|? c2 ? ? N2 Hq'']; subst. inversion Hq''; subst.
        assert (A1 : c1 = a). { assert ((IZR c1 < IZR (a + 1))%R) by (rewrite plus_IZR; lra). assert ((IZR a < IZR (c1 + 1))%R) by (rewrite plus_IZR; lra). apply lt_IZR in H. apply lt_IZR in H0. lia. }
        assert (A2 : c2 = b). { assert ((IZR c2 < IZR (b + 1))%R) by (rewrite plus_IZR; lra). assert ((IZR b < IZR (c2 + 1))%R) by (rewrite plus_IZR; lra). apply lt_IZR in H. apply lt_IZR in H0. lia. }
        congruence. }
      destruct IH as [[-> ->]|[-> ->]].
      + right. destruct S5 as [Q0 Q1]. assert (g0 = -1)%R by congruence. assert (g1 = -1)%R by congruence. subst g0 g1.
        assert (RM : Rabs r = 1%R) by (destruct Hr as [<-|[<-|[]]]; unfold Rabs; destruct Rcase_abs; lra).
        rewrite RM in *. cbn [combine map fst snd] in Hn |- *. split; [f_equal; [field|f_equal; field]|].
        eapply Near; [exact Hn|cbn; field|cbn; field].
      + left. destruct S10 as [Q0 Q1]. assert (g0 = 1)%R by congruence. assert (g1 = 1)%R by congruence. subst g0 g1.
        assert (RM : Rabs r = 1%R) by (destruct Hr as [<-|[<-|[]]]; rewrite Rabs_R1; reflexivity).
        rewrite RM in *. cbn [combine map fst snd] in Hn |- *. split; [f_equal; [field|f_equal; field]|].
        eapply Near; [exact Hn|cbn; field|cbn; field]. }
  change 5 with (cell_number [4; 4] [1; 1]).
  destruct (C42_walled_descent [4; 4] g 1 [1; 1] fuel path vel Hsh ltac:(cbn; lia) Hg Hok Hw ltac:(lra) Hi) as [A|[A|A]].
  - exfalso. destruct A as [pts [cells [vs [cs' [D [L [Z0 _]]]]]]]. destruct (Inv _ _ D) as [pts0 [cells0 [p0 [cs [Ep0 [-> Q]]]]]].
    rewrite last_last in L. subst cs'. destruct Q as [[_ ->]|[_ ->]]; [apply H5; exact Z0|apply H10; exact Z0].
  - exact (proj1 A).
  - exfalso. destruct A as [_ [pts [cells [D [_ St]]]]]. destruct (Inv _ _ D) as [pts0 [cells0 [p0 [cs [Ep0 [-> Q]]]]]].
    rewrite last_last in St. destruct Q as [[_ ->]|[_ ->]].
    + destruct S5 as [Q0 Q1]. destruct St as [[d [Hd Ed]]|Hz].
      * cbn in Hd. destruct d as [|[|d]]; [congruence|congruence|lia].
      * pose proof (Hz 0%nat ltac:(cbn; lia)) as E. rewrite Q0 in E. injection E as E. lra.
    + destruct S10 as [Q0 Q1]. destruct St as [[d [Hd Ed]]|Hz].
      * cbn in Hd. destruct d as [|[|d]]; [congruence|congruence|lia].
      * pose proof (Hz 0%nat ltac:(cbn; lia)) as E. rewrite Q0 in E. injection E as E. lra.
Qed.

(** ** undefined behaviour at once: any start whose neighbours along one dimension are both
    infinite (a corridor one cell wide, for instance), or equal two by two *)
Theorem C42_stuck_start :
  forall dims (g : grid XR) s cs0 fuel path vel,
  shape_ok dims -> (2 <= length dims)%nat -> grid_ok dims g -> times_ok g -> walled dims (times g) ->
  (0 < s <= 1)%R -> interior dims cs0 -> stuck dims (times g) cs0 ->
  gd_apply (S fuel) g (cell_number dims cs0) path vel (XFin s : XR) = Fail UB.
Proof.
  intros dims g s cs0 fuel path vel Hsh Hl2 Hg Hok Hw [Hs0 Hs1] Hi Hst.
  assert (Hne : dims <> []) by (destruct dims; cbn in Hl2; [lia|discriminate]).
  pose proof (interior_in_box _ _ Hi) as Hb. pose proof (cell_number_range dims cs0 Hb) as Hr.
  pose proof (proj2 Hsh) as H2.
  destruct (getCell_in dims g _ Hg Hr) as [c Hc].
  assert (Hn0 : nearest (map IZR cs0) cs0) by (unfold nearest; clear; induction cs0; cbn; constructor; [lra|assumption]).
  destruct (stuck_step dims g s Hsh Hne Hg Hok Hw cs0 (map IZR cs0) Hi Hn0 Hst) as [m [ys [Eg Em]]].
  unfold gd_apply. rewrite (proj1 Hg), (idx2coord_eq dims cs0 Hl2 ltac:(lia) Hb). cbn [bind]. rewrite Hc. cbn [bind].
  assert (EnZ : map nofZ cs0 = (map XFin (map IZR cs0) : list XR)) by (rewrite map_map; reflexivity). rewrite EnZ.
  assert (Ene : neqb (ox (times g (cell_number dims cs0))) n0 = false).
  { destruct Hst as [H0 _]. destruct (times g (cell_number dims cs0)) as [r|]; cbn; [|reflexivity]. unfold Reqb. destruct Req_EM_T; [congruence|reflexivity]. }
  cbn [gd_loop]. unfold getArrivalTime. rewrite Hc. cbn [bind]. rewrite (times_val g _ c Hok Hc). fold (ox (times g (cell_number dims cs0))).
  rewrite Ene, Eg. cbn [bind]. rewrite Em. reflexivity.
Qed.

(** FloatGrid.v - solveEikonal on grids of doubles, as a function of the time
    map: within rounding of the exact update (FloatUpd.v). *)
From Coq Require Import Reals Lra Psatz FunctionalExtensionality.
From Flocq Require Import Core IEEE754.BinarySingleNaN.
From Verif Require Import Base BaseFacts Num NumXR NumF64 NumLaws Grid GridFacts GridUpd GridMore Eikonal Spec Obs
  EikR Solution XGrid FMMAbs FloatOps FloatEik FloatErr FloatUpd FloatAbs.
Open Scope Z_scope.

(** *** what a grid of doubles means, in reals *)
(** finite times, [None] otherwise *)
Definition times64 (g : grid F64) : time_map :=
  fun i => match getArrivalTime g i with Ok t => match toX t with XFin r => Some r | _ => None end | _ => None end.

(** every stored time is +inf or a finite non-negative double *)
Definition times_ok64 (g : grid F64) : Prop :=
  forall i c, getCell g i = Ok c -> toX (c_val c) = XPInf \/ exists r, toX (c_val c) = XFin r /\ (0 <= r)%R.

(** spacing over velocity, as a real quotient *)
Definition slow64 (g : grid F64) (i : Z) : R :=
  match toX (g_leaf g), getCell g i with
  | XFin h, Ok c => match toX (c_occ c) with XFin v => (h / v)%R | _ => 0%R end
  | _, _ => 0%R
  end.

(** the spacing and the velocities of free cells are moderate finite doubles *)
Definition range_ok (g : grid F64) : Prop :=
  (exists h, Fin (g_leaf g) h /\ (lo <= h <= hi)%R) /\
  (forall i c, getCell g i = Ok c -> isOccupied c = false -> exists v, Fin (c_occ c) v /\ (lo <= v <= hi)%R).

Lemma times64_get g i c : getCell g i = Ok c -> times64 g i = match toX (c_val c) with XFin r => Some r | _ => None end.
Proof. intros H. unfold times64, getArrivalTime. rewrite H. reflexivity. Qed.

Lemma times64_val g i c : times_ok64 g -> getCell g i = Ok c -> toX (c_val c) = ox (times64 g i).
Proof.
  intros Hok Hc. rewrite (times64_get g i c Hc). destruct (Hok i c Hc) as [->|[r [-> _]]]; reflexivity.
Qed.

Lemma times64_nonneg g i r : times_ok64 g -> times64 g i = Some r -> (0 <= r)%R.
Proof.
  intros Hok. unfold times64, getArrivalTime. destruct (getCell g i) as [c|e] eqn:E; cbn; [|discriminate].
  destruct (Hok i c E) as [->|[s [-> Hs]]]; [discriminate|]. intros H; injection H as <-; exact Hs.
Qed.

Lemma f64_inf_toX (x : F64) : nisinf x = match toX x with XPInf | XNInf => true | _ => false end.
Proof. destruct x as [s|[]| |s m e B]; reflexivity. Qed.

Lemma lt_toX (x y : F64) : nltb x y = xltb (toX x) (toX y).
Proof. exact (Bltb_toX x y). Qed.

Lemma getMin_F dims (g : grid F64) i d :
  dims2 dims -> 2 * box_size dims <= 4294967296 -> grid_ok dims g -> times_ok64 g ->
  0 <= i < box_size dims -> (d < length dims)%nat ->
  exists m, getMinValueInDim g i d = Ok m /\ toX m = ox (dmin dims (times64 g) i d).
Proof.
  intros H2 Hlt Hg Hok Hi Hd. pose proof (dims2_proper _ H2) as Hp.
  destruct (min_in_dim F64_laws dims g (None, None) i d Hp Hlt Hg Hi Hd (dims2_nth _ _ H2 Hd))
    as [m [buf' [_ [Hm [[j [Hj1 Hj2]] Hall]]]]].
  exists m. split; [exact Hm|].
  pose proof (dmin_spec dims (times64 g) i d Hp Hi Hd) as Hs.
  assert (Hval : forall k v, getArrivalTime g k = Ok v -> toX v = ox (times64 g k)).
  { intros k v Hk. unfold getArrivalTime in Hk. apply bind_ok in Hk. destruct Hk as [c [Hc Hv]].
    injection Hv as <-. exact (times64_val g k c Hok Hc). }
  rewrite (Hval j m Hj2).
  destruct (times64 g j) as [r|] eqn:Ej.
  - assert (dmin dims (times64 g) i d = Some r) as ->; [|reflexivity].
    apply (dim_min_unique dims (times64 g) i d); [exact Hs|]. cbn. split; [exists j; auto|].
    intros k s Hk1 Hk2.
    pose proof (adjacent_range _ _ _ (adjacent_in_adjacent _ _ _ _ Hk1)) as [_ Hkr].
    destruct (getArrivalTime_in dims g k Hg Hkr) as [v Hv].
    specialize (Hall k v Hk1 Hv). rewrite lt_toX, (Hval j m Hj2), Ej, (Hval k v Hv), Hk2 in Hall.
    cbn in Hall. apply Rltb_false in Hall. exact Hall.
  - assert (dmin dims (times64 g) i d = None) as ->; [|reflexivity].
    apply (dim_min_unique dims (times64 g) i d); [exact Hs|]. cbn. intros k Hk1.
    pose proof (adjacent_range _ _ _ (adjacent_in_adjacent _ _ _ _ Hk1)) as [_ Hkr].
    destruct (getArrivalTime_in dims g k Hg Hkr) as [v Hv].
    specialize (Hall k v Hk1 Hv). rewrite lt_toX, (Hval j m Hj2), Ej, (Hval k v Hv) in Hall.
    destruct (times64 g k); [discriminate Hall|reflexivity].
Qed.

Lemma collectT_F dims (g : grid F64) i :
  dims2 dims -> 2 * box_size dims <= 4294967296 -> grid_ok dims g -> times_ok64 g ->
  0 <= i < box_size dims ->
  exists l, collectT g i = Ok l /\ Forall2 Fin l (upw (times64 g i) (dmins dims (times64 g) i)).
Proof.
  intros H2 Hlt Hg Hok Hi. unfold collectT.
  assert (Hd : s_dims (g_sh g) = dims).
  { destruct Hg as [-> _]. rewrite mk_shape_eq; [reflexivity|apply dims2_proper, H2|lia]. }
  rewrite Hd.
  destruct (getCell_in dims g i Hg Hi) as [c Hc].
  assert (Hown : getArrivalTime g i = Ok (c_val c)) by (unfold getArrivalTime; rewrite Hc; reflexivity).
  pose proof (times64_val g i c Hok Hc) as Ho.
  unfold dmins. rewrite Hown.
  assert (Hl : forall l acc racc, (forall d, In d l -> (d < length dims)%nat) -> Forall2 Fin acc racc ->
    exists res, foldM (fun acc dim => m <- getMinValueInDim g i dim ;; own <- Ok (c_val c) ;;
             if negb (nisinf m) && nltb m own then Ok (acc ++ [m]) else Ok acc) l acc = Ok res /\
     Forall2 Fin res (racc ++ upw (times64 g i) (map (dmin dims (times64 g) i) l))).
  { induction l as [|d l IH]; intros acc racc Hl HF.
    - cbn [foldM map]. exists acc. split; [reflexivity|]. destruct (times64 g i); cbn; rewrite app_nil_r; exact HF.
    - cbn [foldM map]. destruct (getMin_F dims g i d H2 Hlt Hg Hok Hi (Hl d (or_introl eq_refl))) as [m [Hm Em]].
      rewrite Hm. cbn [bind]. rewrite upw_cons.
      specialize (fun a ra => IH a ra ltac:(intros; apply Hl; right; assumption)).
      rewrite f64_inf_toX, lt_toX, Em, Ho.
      destruct (dmin dims (times64 g) i d) as [a|]; cbn [ox].
      + assert (HF' : Forall2 Fin (acc ++ [m]) (racc ++ [a])).
        { apply Forall2_app; [exact HF|]. constructor; [apply toX_Fin, Em|constructor]. }
        destruct (times64 g i) as [o|] eqn:Eo; cbn [ox].
        * change (negb false && xltb (XFin a) (XFin o)) with (Rltb a o). unfold Rltb.
          destruct (Rlt_dec a o); cbn [bind].
          -- destruct (IH _ _ HF') as [res [R1 R2]]. exists res. split; [exact R1|]. rewrite <- app_assoc in R2. exact R2.
          -- exact (IH _ _ HF).
        * change (negb false && xltb (XFin a) XPInf) with true. cbn [bind].
          destruct (IH _ _ HF') as [res [R1 R2]]. exists res. split; [exact R1|]. rewrite <- app_assoc in R2. exact R2.
      + cbn [negb andb bind]. exact (IH _ _ HF). }
  destruct (Hl (seq 0 (length dims)) [] [] ltac:(intros d Hin; apply in_seq in Hin; lia) (Forall2_nil _)) as [res [R1 R2]].
  exists res. split; [exact R1|exact R2].
Qed.

(** writing a time *)
Lemma times64_set (g : grid F64) j (t : F64) u g' : setArrivalTime g j t = Ok g' -> Fin t u -> times64 g' = upd (times64 g) j u.
Proof.
  intros H Ft. apply functional_extensionality. intros i. unfold times64, getArrivalTime, upd.
  rewrite (updCell_get _ _ _ _ i H).
  destruct (Z.eqb_spec j i) as [Hne|Hne], (Z.eq_dec i j) as [E|E]; try congruence.
  subst i. destruct (proj1 (updCell_ok _ _ _ _) H) as [c [Hc _]]. rewrite Hc. cbn [bind].
  change (c_val (with_val c t)) with t. rewrite (Fin_toX _ _ Ft). reflexivity.
Qed.

Lemma times64_upd_keep (g : grid F64) j fn g' : updCell g j fn = Ok g' -> (forall c, c_val (fn c) = c_val c) ->
  times64 g' = times64 g.
Proof.
  intros H Hv. apply functional_extensionality. intros i. unfold times64, getArrivalTime.
  rewrite (updCell_get _ _ _ _ i H). destruct (Z.eqb_spec j i) as [->|Hne]; [|reflexivity].
  destruct (getCell g i); cbn [bind]; rewrite ?Hv; reflexivity.
Qed.

Lemma set_times_ok64 (g g' : grid F64) j (t : F64) u : setArrivalTime g j t = Ok g' -> Fin t u -> (0 <= u)%R -> times_ok64 g -> times_ok64 g'.
Proof.
  intros H Ft Hu Hok i c Hc. rewrite (updCell_get _ _ _ _ i H) in Hc. destruct (Z.eqb_spec j i) as [->|Hne]; [|eauto].
  destruct (getCell g i) as [c0|]; [|discriminate]. injection Hc as <-. right. exists u. split; [|exact Hu].
  exact (Fin_toX _ _ Ft).
Qed.

Lemma upd_times_ok64 (g g' : grid F64) j fn : updCell g j fn = Ok g' -> (forall c, c_val (fn c) = c_val c) -> times_ok64 g -> times_ok64 g'.
Proof.
  intros H Hv Hok i c Hc. rewrite (updCell_get _ _ _ _ i H) in Hc. destruct (Z.eqb_spec j i) as [->|Hne]; [|eauto].
  destruct (getCell g i) as [c0|] eqn:E; [|discriminate]. injection Hc as <-. rewrite Hv. eauto.
Qed.

Lemma frame_slow64 I g g' : frame I g g' -> forall i, slow64 g' i = slow64 g i.
Proof.
  intros HF i. pose proof HF as [_ [E2 [_ [_ [E5 H]]]]]. unfold slow64. rewrite E2.
  destruct (toX (g_leaf g)); auto. destruct (getCell g i) as [c|e] eqn:Ec.
  - destruct (H i c Ec) as [c' [H1 [H2 _]]]. rewrite H1, H2. reflexivity.
  - destruct (getCell g' i) as [c'|e'] eqn:Ec'; [|reflexivity].
    destruct (frame_back _ _ _ _ _ HF Ec') as [c [Hc _]]. congruence.
Qed.

Lemma frame_range I g g' : frame I g g' -> range_ok g -> range_ok g'.
Proof.
  intros HF [[h [H1 H2]] H3]. split.
  - exists h. split; [|exact H2]. destruct HF as [_ [E2 _]]. rewrite E2. exact H1.
  - intros i c' Hc' Ho'. destruct (frame_back _ _ _ _ _ HF Hc') as [c [Hc [E _]]]. rewrite E in *.
    apply (H3 i c Hc). unfold isOccupied in *. rewrite <- E. exact Ho'.
Qed.

(** isTimeBetterThan on doubles *)
Lemma better_F (x y : f64) u o : Fin x u -> (Rabs u <= bpow radix2 900)%R -> toX y = ox o ->
  (isTimeBetterThan (N := F64) x y = true <-> fbetter u o).
Proof.
  intros Fx Hu Hy. unfold isTimeBetterThan.
  assert (Fs : Fin (nadd (n := F64) x comp_margin) (rnd (u + Rmargin))).
  { apply Fin_plus; [exact Fx|exact Fin_margin|]. eapply Rle_trans; [apply Rabs_triang|].
    rewrite (Rabs_pos_eq Rmargin) by (pose proof Rmargin_pos; lra).
    assert (Rmargin <= bpow radix2 900)%R.
    { apply Rle_trans with (bpow radix2 0); [change (bpow radix2 0) with 1%R; unfold Rmargin; lra|apply bpow_le; lia]. }
    assert (2 * bpow radix2 900 <= big)%R; [|lra].
    change 2%R with (bpow radix2 1). rewrite <- bpow_plus. apply bpow_le. lia. }
  rewrite lt_toX, Hy, (Fin_toX _ _ Fs). destruct o as [t|]; cbn [ox fbetter xltb].
  - apply Rltb_true.
  - tauto.
Qed.

Lemma inf_not_better64 (x : F64) : isTimeBetterThan (ninf : F64) x = false.
Proof.
  unfold isTimeBetterThan. rewrite lt_toX. 
  assert (E : toX (nadd (n := F64) ninf comp_margin) = XPInf) by reflexivity.
  rewrite E. destruct (toX x); reflexivity.
Qed.

Lemma dims2_pow dims : dims2 dims -> 2 ^ Z.of_nat (length dims) <= box_size dims.
Proof.
  induction dims as [|k r IH]; intros H; [cbn; lia|]. inversion H as [|? ? Hk Hr]; subst.
  specialize (IH Hr). change (box_size (k :: r)) with (k * box_size r). cbn [length]. rewrite Nat2Z.inj_succ, Z.pow_succ_r by lia. nia.
Qed.

Lemma dims_few dims : dims2 dims -> 2 * box_size dims <= 4294967296 -> (INR (length dims) <= 31)%R.
Proof.
  intros H2 Hlt. pose proof (dims2_pow dims H2) as H.
  assert (Z.of_nat (length dims) < 32).
  { apply (Z.pow_lt_mono_r_iff 2); [lia|lia|]. change (2 ^ 32) with 4294967296. lia. }
  rewrite INR_IZR_INZ. apply IZR_le. lia.
Qed.

Section Solve.
Variable dims : list Z.
Hypothesis Hd2 : dims2 dims.
Hypothesis Hlt : 2 * box_size dims <= 4294967296.
Variable init : list Z.
Variable g0 : grid F64.
Hypothesis Hrg : range_ok g0.
Notation fr := (free g0).
Notation f := (slow64 g0).
Variables flo fhi : R.
Hypothesis Hflo : (0 < flo)%R.
Hypothesis Hfr : forall i, fr i -> (flo <= f i <= fhi)%R.
Notation n := (INR (length dims)).
Notation B := (Bmax dims fhi).
Hypothesis Hsmall : (256 * (n * n * n * n) * (uu * ((B + 3 * fhi) * (B + 3 * fhi))) <= flo * flo)%R.

Let Hp : proper dims := dims2_proper dims Hd2.

Lemma free_slow i : fr i -> exists c h v, getCell g0 i = Ok c /\ isOccupied c = false /\ Fin (g_leaf g0) h /\ (lo <= h <= hi)%R /\
  Fin (c_occ c) v /\ (lo <= v <= hi)%R /\ f i = (h / v)%R.
Proof.
  intros [c [Hc Ho]]. destruct Hrg as [[h [Fh Rh]] Hv]. destruct (Hv i c Hc Ho) as [v [Fv Rv]].
  exists c, h, v. repeat (split; [assumption|]). unfold slow64. rewrite (Fin_toX _ _ Fh), Hc, (Fin_toX _ _ Fv). reflexivity.
Qed.

Lemma slow_top i : fr i -> (0 < f i <= bpow radix2 400)%R.
Proof.
  intros Hi. destruct (free_slow i Hi) as [c [h [v [_ [_ [_ [Rh [_ [Rv ->]]]]]]]]]. pose proof lo_pos as L.
  split; [apply Rdiv_lt_0_compat; lra|]. apply Rmult_le_reg_r with v; [lra|].
  replace (h / v * v)%R with h by (field; lra). apply Rle_trans with hi; [lra|].
  change 400%Z with (200 + 200)%Z. rewrite bpow_plus. fold hi.
  assert (E : (hi * lo = 1)%R) by (unfold hi, lo; rewrite <- bpow_plus; reflexivity).
  assert (0 < hi)%R by apply bpow_gt_0.
  assert (hi * hi * lo <= hi * hi * v)%R by (apply Rmult_le_compat_l; nra). nra.
Qed.

Lemma B_top i : fr i -> (1 <= n)%R -> (0 <= B)%R /\ (B + 3 * f i <= tmax)%R.
Proof.
  intros Hi Hn. pose proof (slow_top i Hi) as [F0 F1]. pose proof (Hfr i Hi) as Hfi.
  assert (HB : (0 <= B)%R).
  { unfold Bmax. apply Rmult_le_pos; [lra|apply pos_INR]. }
  split; [exact HB|].
  set (b := (B + 3 * fhi)%R) in *. assert (Hb : (0 <= b)%R) by (unfold b; lra).
  assert (H1 : (1 <= n * n * n * n)%R) by (assert (1 <= n * n)%R by nra; nra).
  assert (Hbb : (0 <= uu * (b * b))%R) by (pose proof uu_pos; apply Rmult_le_pos; nra).
  assert (H2 : (256 * (uu * (b * b)) <= flo * flo)%R).
  { eapply Rle_trans; [|exact Hsmall]. apply Rmult_le_compat_r; [exact Hbb|]. lra. }
  rewrite uu_val in H2.
  assert (H3 : (b <= 8388608 * flo)%R).
  { destruct (Rle_dec b (8388608 * flo)) as [L|L]; [exact L|exfalso].
    assert ((8388608 * flo) * (8388608 * flo) < b * b)%R by (apply Rmult_le_0_lt_compat; lra).
    assert (256 * (/ 9007199254740992 * (b * b)) = b * b / 35184372088832)%R by field. nra. }
  apply Rle_trans with (8388608 * bpow radix2 400)%R; [unfold b in H3; nra|].
  replace 8388608%R with (bpow radix2 23) by (cbn; lra). rewrite <- bpow_plus. apply bpow_le. lia.
Qed.

(** the double solveEikonal computes *)
Theorem solve_F g i c I : frame I g0 g -> grid_ok dims g0 -> times_ok64 g -> FSup dims init fr fhi (times64 g) ->
  0 <= i < box_size dims -> getCell g i = Ok c -> isOccupied c = false ->
  exists u, solveEikonal g i = Ok u /\
   ((u = ninf /\ upw (times64 g i) (dmins dims (times64 g) i) = []) \/
    exists r, Fin u r /\ (Rabs r <= bpow radix2 900)%R /\ solves dims f fhi (times64 g) i r).
Proof.
  intros F Hg0 Tok S Hi Hc Ho.
  assert (Hfr0 : fr i) by (apply (frame_free_inv _ _ _ _ F); exists c; auto).
  pose proof (frame_grid_ok _ _ _ _ F Hg0) as Hg.
  destruct (collectT_F dims g i Hd2 Hlt Hg Tok Hi) as [l [Hl HF]].
  unfold solveEikonal. rewrite Hl. cbn [bind].
  destruct (upw (times64 g i) (dmins dims (times64 g) i)) as [|t ts] eqn:E.
  { inversion HF; subst. exists ninf. split; [reflexivity|]. left. auto. }
  assert (Hne : upw (times64 g i) (dmins dims (times64 g) i) <> []) by (rewrite E; discriminate).
  pose proof (n_ge1 dims _ Hne (upw_length dims (times64 g) i)) as Hn.
  destruct l as [|x l]; [inversion HF|]. rewrite Hc. cbn [bind].
  eexists. split; [reflexivity|]. right.
  destruct (frame_range _ _ _ F Hrg) as [[h [Fh Rh]] Hv]. destruct (Hv i c Hc Ho) as [v [Fv Rv]].
  assert (Ef : f i = (h / v)%R).
  { rewrite <- (frame_slow64 _ _ _ F). unfold slow64. rewrite (Fin_toX _ _ Fh), Hc, (Fin_toX _ _ Fv). reflexivity. }
  destruct (B_top i Hfr0 Hn) as [HB0 HBt]. rewrite Ef in HBt.
  pose proof (dims_few dims Hd2 Hlt) as H31.
  pose proof (Hfr i Hfr0) as Hfi. rewrite Ef in Hfi.
  assert (Hfh : (0 <= fhi)%R) by lra.
  assert (Hlen : (INR (length (t :: ts)) <= n)%R) by (rewrite <- E; apply upw_length).
  assert (Hb : forall s, In s (t :: ts) -> (0 <= s <= B)%R).
  { intros s Hs. rewrite <- E in Hs. destruct (tick dims Hp (times64 g) i s Hs Hi) as [[k [_ Hk]] _].
    eapply (fs_bound dims init fr fhi); eauto. }
  assert (Hsm : (256 * (n * n * n * n) * (uu * ((B + 3 * (h / v)) * (B + 3 * (h / v)))) <= (h / v) * (h / v))%R).
  { rewrite <- Ef. apply (small_f dims fr f flo fhi Hflo Hfr Hsmall i _ Hfr0). rewrite Ef. lra. }
  destruct (float_update _ _ h v Fh Fv Rh Rv n ltac:(lra) B (x :: l) (t :: ts) HF ltac:(discriminate) Hlen Hb HBt Hsm) as [u [Fu [Hu Hau]]].
  exists u. split; [exact Fu|]. split.
  - rewrite Rabs_pos_eq by lra. apply Rle_trans with tmax; [lra|]. unfold tmax. apply bpow_le. lia.
  - constructor; [exact Hne|exact (Fin_rnd _ _ Fu)|rewrite Ef; exact Hu|rewrite Ef, E; exact Hau].
Qed.
End Solve.

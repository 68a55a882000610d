(** EikProps.v - proofs for C10-C14. *)
From Coq Require Import Reals Lra Permutation Sorted.
From Flocq Require Import Core IEEE754.BinarySingleNaN.
From Verif Require Import Base BaseFacts Num NumXR NumF64 NumLaws Grid GridFacts GridUpd GridMore Eikonal Spec Obs
  EikR EikX Solution XGrid.
Open Scope Z_scope.

Lemma upw_upwind_values own ms : upw own ms = upwind_values own ms.
Proof.
  unfold upwind_values, upw. destruct own as [o|].
  - unfold below. apply filter_ext. reflexivity.
  - induction (somes ms) as [|x l IH]; cbn; [reflexivity|]. rewrite <- IH. reflexivity.
Qed.

Lemma update_solves dims (g : grid XR) i ms :
  dims2 dims -> 2 * box_size dims <= 4294967296 -> grid_ok dims g -> times_ok g -> reals_ok g ->
  0 <= i < box_size dims -> free g i -> minima dims (times g) i ms ->
  upwind_values (times g i) ms <> [] ->
  exists u, solveEikonal g i = Ok (XFin u) /\
    let ts := upwind_values (times g i) ms in
    let f := slow g i in
    (f * f <= upwind_sum ts u /\ upwind_sum ts (u - Rmargin) < f * f)%R /\
    (exists r, upwind_sum ts r = f * f /\ (forall r', upwind_sum ts r' = f * f -> r' = r) /\
               r <= u < r + Rmargin)%R.
Proof.
  intros H2 Hlt Hg Hok Hr Hi Hfr Hms Hne.
  pose proof (dims2_proper _ H2) as Hp.
  rewrite (minima_unique dims (times g) i ms Hp Hi Hms) in *.
  rewrite (solveEikonal_X dims) by assumption. unfold eik.
  rewrite upw_upwind_values. set (ts := upwind_values (times g i) (dmins dims (times g) i)) in *.
  pose proof (slow_pos g i Hr Hfr) as Hf. pose proof Rmargin_pos as Hm.
  exists (RF (slow g i) Rmargin ts). split; [destruct ts; [congruence|reflexivity]|].
  cbv zeta. destruct (RF_bounds (slow g i) Rmargin ts Hf Hm Hne) as [B1 [B2 _]].
  split; [split; assumption|].
  destruct (US_root_exists (slow g i) ts Hf Hne) as [r Hroot]. exists r.
  split; [exact Hroot|]. split; [|apply RF_near_root; assumption].
  intros r' Hr'. apply (US_root_unique (slow g i) ts); assumption.
Qed.

(** C11 *)
Lemma update_causal dims (g : grid XR) i ms :
  dims2 dims -> 2 * box_size dims <= 4294967296 -> grid_ok dims g -> times_ok g -> reals_ok g ->
  0 <= i < box_size dims -> free g i -> minima dims (times g) i ms ->
  upwind_values (times g i) ms <> [] ->
  exists u used rest, solveEikonal g i = Ok (XFin u) /\
    Permutation (upwind_values (times g i) ms) (used ++ rest) /\ used <> [] /\
    (forall t, In t used -> t < u)%R /\
    Rsum (map (fun t => Rsqr (u - t)) used) = (slow g i * slow g i)%R /\
    (forall t, In t rest -> u - Rmargin < t)%R.
Proof.
  intros H2 Hlt Hg Hok Hr Hi Hfr Hms Hne.
  pose proof (dims2_proper _ H2) as Hp.
  rewrite (minima_unique dims (times g) i ms Hp Hi Hms) in *.
  rewrite (solveEikonal_X dims) by assumption. unfold eik.
  rewrite upw_upwind_values. set (ts := upwind_values (times g i) (dmins dims (times g) i)) in *.
  pose proof (slow_pos g i Hr Hfr) as Hf. pose proof Rmargin_pos as Hm.
  destruct (RF_split (slow g i) Rmargin ts Hf Hm Hne) as [used [rest [E [[Hne' [HP [Hs HD]]] [Hrf Hrest]]]]].
  exists (RF (slow g i) Rmargin ts), used, rest.
  split; [destruct ts; [congruence|reflexivity]|].
  split; [rewrite <- E; symmetry; apply Rsort_perm|]. split; [exact Hne'|].
  rewrite Hrf. split; [exact Hs|]. split; [exact HP|].
  intros t Ht. specialize (Hrest t Ht). lra.
Qed.

(** the prefixes of the sorted values on which the quadratic is evaluated *)
Inductive evaluated {N : Num} (h v : N) (ts : list N) : list N -> list N -> Prop :=
| ev_start t r : isort ts = t :: r -> evaluated h v ts [t] r
| ev_next p t r : evaluated h v ts p (t :: r) ->
    nltb (nsub (solveEikonalNDims h v p) t) comp_margin = false ->
    evaluated h v ts (p ++ [t]) r.

Lemma evaluated_finite h v ts p r :
  (0 < h)%R -> (0 < v)%R -> evaluated (N := XR) (XFin h) (XFin v) (map XFin ts) p r ->
  exists u, solveEikonalNDims (XFin h : XR) (XFin v) p = XFin u /\
            forall t, In t p -> exists s, t = XFin s /\ (s < u)%R.
Proof.
  intros Hh Hv H. assert (Hf : (0 < h / v)%R) by (apply Rdiv_lt_0_compat; assumption).
  assert (Hgo : exists q s, p = map XFin q /\ r = map XFin s /\ Rsort ts = q ++ s /\ ok_used (h / v) q).
  { induction H as [t r E|p t r H IH Hge].
    - rewrite isort_X in E. destruct (Rsort ts) as [|x s] eqn:Es; [discriminate|]. injection E as <- <-.
      exists [x], s. repeat (split; [reflexivity|]). apply ok_singleton, Hf.
    - destruct IH as [q [s [-> [Es [Eq Hok]]]]]. destruct s as [|x s]; [discriminate|].
      cbn in Es. injection Es as -> ->.
      assert (HD : (0 <= disc (h / v) q)%R) by (destruct Hok as [_ [_ [_ HD]]]; lra).
      rewrite solveND_X in Hge by (auto; apply Hok). rewrite xr_margin in Hge. cbn in Hge.
      apply Rltb_false in Hge. pose proof Rmargin_pos.
      exists (q ++ [x]), s. split; [rewrite map_app; reflexivity|]. split; [reflexivity|].
      split; [rewrite <- app_assoc; exact Eq|].
      apply ok_step; auto; [|lra].
      pose proof (Rsort_sorted ts) as Hs. rewrite Eq in Hs.
      intros y Hin. clear - Hs Hin. induction q as [|z u IHu]; [destruct Hin|].
      cbn in Hs. inversion Hs as [|? ? Hs' HF]; subst. destruct Hin as [<-|Hin].
      + rewrite Forall_forall in HF. apply HF. apply in_or_app; right; left; reflexivity.
      + apply IHu; assumption. }
  destruct Hgo as [q [s [-> [-> [E [Hne [_ [Hs HD]]]]]]]].
  exists (Rnd (h / v) q). split; [apply solveND_X; auto; lra|].
  intros t Ht. apply in_map_iff in Ht. destruct Ht as [x [<- Hx]]. exists x. split; [reflexivity|apply Hs, Hx].
Qed.

(** C12 *)
Lemma update_infinite dims (g : grid XR) i :
  dims2 dims -> 2 * box_size dims <= 4294967296 -> grid_ok dims g -> times_ok g -> reals_ok g ->
  0 <= i < box_size dims -> free g i ->
  exists u, solveEikonal g i = Ok u /\
    (nisinf u = true <-> forall j r, adjacent dims i j -> times g j = Some r ->
                                     lower_than (times g i) r = false) /\
    (nisinf u = false -> exists x, u = XFin x).
Proof.
  intros H2 Hlt Hg Hok Hr Hi Hfr. pose proof (dims2_proper _ H2) as Hp.
  exists (ox (eik dims (slow g i) (times g) i)).
  split; [apply solveEikonal_X; assumption|]. unfold eik.
  rewrite upw_upwind_values. split.
  - destruct (upwind_values (times g i) (dmins dims (times g) i)) as [|t ts] eqn:E; cbn [ox nisinf XR].
    + split; [|reflexivity]. intros _ j r Hadj Hj.
      destruct (lower_than (times g i) r) eqn:El; [exfalso|reflexivity].
      apply adjacent_adjacent_in in Hadj. destruct Hadj as [d [Hd Hadj]].
      pose proof (dmin_spec dims (times g) i d Hp Hi Hd) as Hm.
      destruct (dmin dims (times g) i d) as [a|] eqn:Ed; cbn in Hm.
      * destruct Hm as [_ Hm]. specialize (Hm j r Hadj Hj).
        assert (Hin : In a (upwind_values (times g i) (dmins dims (times g) i))).
        { apply filter_In. split; [apply in_somes, in_dmins; exists d; auto|].
          unfold lower_than in *. destruct (times g i) as [o|]; [|reflexivity].
          destruct (Rlt_dec r o); [|discriminate]. destruct (Rlt_dec a o); [reflexivity|lra]. }
        rewrite E in Hin. destruct Hin.
      * rewrite (Hm j Hadj) in Hj. discriminate.
    + split; [discriminate|]. intros Hno. exfalso.
      assert (Hin : In t (upwind_values (times g i) (dmins dims (times g) i))) by (rewrite E; left; reflexivity).
      apply filter_In in Hin. destruct Hin as [Hin Hl]. apply in_somes, in_dmins in Hin.
      destruct Hin as [d [Hd Hin]]. pose proof (dmin_spec dims (times g) i d Hp Hi Hd) as Hm.
      rewrite <- Hin in Hm. destruct Hm as [[j [Hj1 Hj2]] _].
      rewrite (Hno j t (adjacent_in_adjacent _ _ _ _ Hj1) Hj2) in Hl. discriminate.
  - destruct (upwind_values (times g i) (dmins dims (times g) i)); cbn; [discriminate|eauto].
Qed.

(** C14: order independence, for every arithmetic *)
Section Order.
Context {N : Num}.
Variable L : NumLaws N.
Variable Q : N -> Prop.
Hypothesis tot : forall x y, Q x -> Q y -> nltb x y = true \/ nltb y x = true \/ x = y.

Lemma lt_asym (x y : N) : nltb x y = true -> nltb y x = false.
Proof.
  intros H. destruct (nltb y x) eqn:E; [|reflexivity].
  pose proof (nl_trans N L _ _ _ H E) as H'. rewrite (nl_irrefl N L) in H'. discriminate.
Qed.

Lemma insert_comm (x y : N) l :
  Q x -> Q y -> Forall Q l -> insert_sorted x (insert_sorted y l) = insert_sorted y (insert_sorted x l).
Proof.
  intros Hx Hy Hl. induction Hl as [|z l Hz Hl IH]; cbn [insert_sorted].
  - destruct (tot x y Hx Hy) as [H|[H| ->]]; [| |reflexivity]; rewrite H, (lt_asym _ _ H); reflexivity.
  - destruct (nltb y z) eqn:Eyz, (nltb x z) eqn:Exz; cbn [insert_sorted]; rewrite ?Eyz, ?Exz; auto.
    + destruct (tot x y Hx Hy) as [H|[H| ->]]; [| |reflexivity]; rewrite H, (lt_asym _ _ H); reflexivity.
    + (* y < z, not x < z : y < x *)
      destruct (nltb x y) eqn:Exy; [rewrite (nl_trans N L _ _ _ Exy Eyz) in Exz; discriminate|]. reflexivity.
    + destruct (nltb y x) eqn:Eyx; [rewrite (nl_trans N L _ _ _ Eyx Exz) in Eyz; discriminate|]. reflexivity.
    + f_equal. apply IH.
Qed.

Lemma isort_forall l : Forall Q l -> Forall Q (isort l).
Proof.
  intros H; induction H as [|x l Hx H IH]; cbn; [constructor|].
  clear H. induction IH as [|y r Hy Hr IH]; cbn; [constructor; auto|].
  destruct (nltb x y); repeat (constructor; auto).
Qed.

Lemma isort_perm_eq l1 l2 : Permutation l1 l2 -> Forall Q l1 -> isort l1 = isort l2.
Proof.
  intros H; induction H as [|x a b H IH|x y l|a b c H1 IH1 H2 IH2]; intros HQ; cbn; auto.
  - inversion HQ; subst. rewrite IH by assumption. reflexivity.
  - inversion HQ as [|? ? Hx HQ']; subst. inversion HQ'; subst.
    apply insert_comm; auto. apply isort_forall; assumption.
  - rewrite IH1 by assumption. apply IH2. eapply Permutation_Forall; eauto.
Qed.

Lemma filter_perm {A} (p : A -> bool) a b : Permutation a b -> Permutation (filter p a) (filter p b).
Proof.
  intros H; induction H; cbn; auto.
  - destruct (p x); auto.
  - destruct (p x), (p y); auto. apply perm_swap.
  - eapply Permutation_trans; eauto.
Qed.

Lemma collectT_filter (g : grid N) i ms own :
  mapM (getMinValueInDim g i) (seq 0 (length (s_dims (g_sh g)))) = Ok ms ->
  getArrivalTime g i = Ok own ->
  collectT g i = Ok (filter (fun m => negb (nisinf m) && nltb m own) ms).
Proof.
  unfold collectT. intros Hms Hown. rewrite Hown.
  assert (Hl : forall l ms acc, mapM (getMinValueInDim g i) l = Ok ms ->
    foldM (fun acc dim => m <- getMinValueInDim g i dim ;; own0 <- Ok own ;;
             if negb (nisinf m) && nltb m own0 then Ok (acc ++ [m]) else Ok acc) l acc
    = Ok (acc ++ filter (fun m => negb (nisinf m) && nltb m own) ms)).
  { induction l as [|d l IH]; intros ms0 acc H; cbn in H |- *.
    - injection H as <-. cbn. rewrite app_nil_r. reflexivity.
    - apply bind_ok in H. destruct H as [m [Hm H]]. apply bind_ok in H. destruct H as [ms1 [H1 H2]].
      injection H2 as <-. rewrite Hm. cbn [bind filter].
      destruct (negb (nisinf m) && nltb m own); cbn [bind]; rewrite (IH ms1) by exact H1; [|reflexivity].
      rewrite <- app_assoc. reflexivity. }
  rewrite (Hl _ ms [] Hms). reflexivity.
Qed.

Lemma update_order_independent (g g' : grid N) i i' ms ms' c c' :
  mapM (getMinValueInDim g i) (seq 0 (length (s_dims (g_sh g)))) = Ok ms ->
  mapM (getMinValueInDim g' i') (seq 0 (length (s_dims (g_sh g')))) = Ok ms' ->
  Permutation ms ms' -> Forall Q ms ->
  getCell g i = Ok c -> getCell g' i' = Ok c' ->
  c_val c = c_val c' -> c_occ c = c_occ c' -> g_leaf g = g_leaf g' ->
  solveEikonal g i = solveEikonal g' i'.
Proof.
  intros Hms Hms' Hperm HQ Hc Hc' Hv Ho Hl. unfold solveEikonal.
  rewrite (collectT_filter g i ms (c_val c) Hms) by (unfold getArrivalTime; rewrite Hc; reflexivity).
  rewrite (collectT_filter g' i' ms' (c_val c') Hms') by (unfold getArrivalTime; rewrite Hc'; reflexivity).
  cbn [bind]. rewrite <- Hv.
  assert (Hp2 := filter_perm (fun m => negb (nisinf m) && nltb m (c_val c)) _ _ Hperm).
  assert (HQ2 : Forall Q (filter (fun m => negb (nisinf m) && nltb m (c_val c)) ms)).
  { rewrite Forall_forall in *. intros x Hx. apply filter_In in Hx. apply HQ, Hx. }
  rewrite Hc, Hc'. cbn [bind]. unfold solve_values. rewrite <- (isort_perm_eq _ _ Hp2 HQ2), <- Ho, <- Hl.
  destruct (filter _ ms) as [|x l], (filter _ ms') as [|x' l']; try reflexivity; exfalso.
  apply Permutation_sym in Hp2. apply Permutation_nil in Hp2; discriminate.
Qed.
End Order.

Lemma xr_total (x y : XR) : x <> XNaN -> y <> XNaN -> nltb x y = true \/ nltb y x = true \/ x = y.
Proof.
  destruct x as [x| | |], y as [y| | |]; intros; try congruence; cbn; auto.
  destruct (Rtotal_order x y) as [H'|[H'|H']]; [left|right; right|right; left];
    try apply Rltb_true; try congruence; lra.
Qed.

(** a double that is neither NaN nor minus zero *)
Definition plain (x : f64) : Prop :=
  match x with B754_nan => False | B754_zero s => s = false | _ => True end.

Lemma f64_total (x y : F64) : plain x -> plain y -> nltb x y = true \/ nltb y x = true \/ x = y.
Proof.
  intros Hx Hy. change (Bltb x y = true \/ Bltb y x = true \/ x = y). rewrite !Bltb_toX.
  assert (Ht : xltb (toX x) (toX y) = true \/ xltb (toX y) (toX x) = true \/ toX x = toX y).
  { apply xr_total; destruct x as [|[]| |], y as [|[]| |]; cbn in *; congruence || contradiction. }
  destruct Ht as [H|[H|H]]; auto. right; right.
  destruct x as [sx|[]| |sx mx ex Bx], y as [sy|[]| |sy my ey By]; cbn [toX plain] in *;
    try discriminate; try contradiction; try congruence.
  - exfalso. injection H as H. symmetry in H. apply (F2R_neq_0 radix2) in H; [exact H|].
    destruct sy; cbn; discriminate.
  - exfalso. injection H as H. apply (F2R_neq_0 radix2) in H; [exact H|].
    destruct sx; cbn; discriminate.
  - injection H as H. apply B2R_inj; [reflexivity|reflexivity|exact H].
Qed.

(** C13 *)
Definition c13_grid : grid F64 :=
  let t1 : F64 := nofZ 100000000 in
  let t2 : F64 := nadd t1 (ndiv (nofZ 1) (nofZ 2)) in
  match setArrivalTime (new_grid [2;2] (n1 : F64)) 1 t1 with
  | Ok g => match setArrivalTime g 2 t2 with Ok g' => g' | _ => g end
  | _ => new_grid [2;2] (n1 : F64)
  end.

(** u computed at cell 0; t1, t2 the times of its neighbours 1 and 2 *)
Definition c13_u : F64 := match solveEikonal c13_grid 0 with Ok u => u | _ => n0 end.
Definition c13_t (i : Z) : F64 := match getArrivalTime c13_grid i with Ok u => u | _ => n0 end.

Lemma c13_checks :
  (match solveEikonal c13_grid 0 with Ok _ => true | _ => false end &&
   match getArrivalTime c13_grid 0 with Ok t => neqb t ninf | _ => false end &&
   match getArrivalTime c13_grid 1 with Ok t => neqb t (nofZ 100000000) | _ => false end &&
   match getArrivalTime c13_grid 2 with Ok t => neqb (nadd t t) (nofZ 200000001) | _ => false end &&
   match getCell c13_grid 0 with Ok c => neqb (c_occ c) n1 && negb (isOccupied c) | _ => false end &&
   neqb (g_leaf c13_grid) n1 &&
   nltb c13_u (c13_t 2))%bool = true.
Proof. vm_compute. reflexivity. Qed.

Lemma f64_plus_nonneg_ge (x y : f64) :
  is_finite x = true -> is_finite y = true -> Bsign y = false -> (0 <= B2R y)%R ->
  Bltb (Bplus mode_NE x y) x = false.
Proof.
  intros Fx Fy Sy Hy. rewrite Bltb_toX.
  generalize (Bplus_correct prec64 emax64 Hprec64 Hmax64 mode_NE x y Fx Fy).
  destruct (Rlt_bool_spec (Rabs (round radix2 (SpecFloat.fexp prec64 emax64) (round_mode mode_NE)
     (B2R x + B2R y))) (bpow radix2 emax64)) as [Hlt|Hge].
  - intros [HB [HF _]]. rewrite (toX_finite x Fx), (toX_finite _ HF). cbn. apply Rltb_false.
    eapply Rle_trans; [|right; symmetry; exact HB].
    rewrite <- (round_generic radix2 (SpecFloat.fexp prec64 emax64) (round_mode mode_NE) (B2R x)) at 1
      by apply generic_format_B2R.
    apply round_le; [|apply valid_rnd_round_mode|].
    { apply fexp_correct, Hprec64. }
    lra.
  - intros [HB Hs]. rewrite Sy in Hs. rewrite Hs in HB.
    destruct (Bplus mode_NE x y) as [|[]| |]; try discriminate HB.
    destruct (toX x); reflexivity.
Qed.

Lemma f64_pos (x : f64) : is_finite x = true -> Bltb (n0 : F64) x = true -> Bsign x = false /\ (0 < B2R x)%R.
Proof.
  intros Fx H. rewrite Bltb_toX in H. rewrite (toX_finite x Fx) in H.
  change (toX (n0 : F64)) with (XFin 0) in H. cbn in H. apply Rltb_true in H. split; [|exact H].
  destruct x as [s| | |s m e B]; try discriminate Fx; cbn in *; [lra|].
  destruct s; [|reflexivity]. exfalso.
  assert (F2R (Float radix2 (Z.neg m) e) < 0)%R by (apply F2R_lt_0; reflexivity).
  cbn in H. unfold F2R in *; cbn in *. lra.
Qed.

Lemma f64_div_pos (x y : f64) :
  is_finite x = true -> is_finite y = true -> Bltb (n0 : F64) x = true -> Bltb (n0 : F64) y = true ->
  (is_finite (Bdiv mode_NE x y) = true /\ Bsign (Bdiv mode_NE x y) = false /\ (0 <= B2R (Bdiv mode_NE x y))%R)
  \/ Bdiv mode_NE x y = B754_infinity false.
Proof.
  intros Fx Fy Hx Hy. destruct (f64_pos x Fx Hx) as [Sx Px]. destruct (f64_pos y Fy Hy) as [Sy Py].
  generalize (Bdiv_correct prec64 emax64 Hprec64 Hmax64 mode_NE x y (Rgt_not_eq _ _ Py)).
  destruct (Rlt_bool_spec (Rabs (round radix2 (SpecFloat.fexp prec64 emax64) (round_mode mode_NE)
     (B2R x / B2R y))) (bpow radix2 emax64)) as [Hlt|Hge].
  - intros [HB [HF HS]]. left. rewrite HF. split; [exact Fx|].
    split.
    { rewrite HS, Sx, Sy; [reflexivity|]. destruct (Bdiv mode_NE x y); try reflexivity. rewrite Fx in HF; discriminate HF. }
    eapply Rle_trans; [|right; symmetry; exact HB].
    rewrite <- (round_0 radix2 (SpecFloat.fexp prec64 emax64) (round_mode mode_NE)).
    apply round_le; [|apply valid_rnd_round_mode|].
    { apply fexp_correct, Hprec64. }
    left. apply Rdiv_lt_0_compat; assumption.
  - intros HB. right. rewrite Sx, Sy in HB. cbn in HB.
    destruct (Bdiv mode_NE x y) as [|[]| |]; try discriminate HB. reflexivity.
Qed.

Lemma one_dim_causal (h v t : F64) :
  is_finite (h : f64) = true -> is_finite (v : f64) = true -> is_finite (t : f64) = true ->
  nltb n0 h = true -> nltb n0 v = true ->
  nltb (solveEikonalNDims h v [t]) t = false.
Proof.
  intros Fh Fv Ft Hh Hv.
  change (Bltb (Bplus mode_NE t (Bdiv mode_NE h v)) t = false).
  destruct (f64_div_pos h v Fh Fv Hh Hv) as [[F [S P]]|E].
  - apply f64_plus_nonneg_ge; assumption.
  - rewrite E. destruct (t : f64) as [s|[]| |s m e B]; try discriminate Ft; reflexivity.
Qed.

Lemma one_dim_update_causal (g : grid F64) i ms c t :
  mapM (getMinValueInDim g i) (seq 0 (length (s_dims (g_sh g)))) = Ok ms ->
  getCell g i = Ok c -> filter (fun m => negb (nisinf m) && nltb m (c_val c)) ms = [t] ->
  is_finite (g_leaf g : f64) = true -> nltb n0 (g_leaf g) = true ->
  is_finite (c_occ c : f64) = true -> nltb n0 (c_occ c) = true ->
  exists u, solveEikonal g i = Ok u /\ nltb u t = false.
Proof.
  intros Hms Hc Hf Fh Hh Fv Hv.
  assert (Ft : is_finite (t : f64) = true).
  { assert (Hin : In t (filter (fun m => negb (nisinf m) && nltb m (c_val c)) ms)) by (rewrite Hf; left; reflexivity).
    apply filter_In in Hin. destruct Hin as [_ Hin]. apply andb_prop in Hin. destruct Hin as [H1 H2].
    destruct (t : f64) as [s|s| |s m e B]; try reflexivity; try discriminate H1.
    rewrite (nl_nan_l F64 F64_laws) in H2; [discriminate|reflexivity]. }
  unfold solveEikonal. rewrite (collectT_filter g i ms (c_val c) Hms) by (unfold getArrivalTime; rewrite Hc; reflexivity).
  rewrite Hf. cbn [bind]. rewrite Hc. cbn [bind].
  eexists. split; [reflexivity|].
  change (solve_values (g_leaf g) (c_occ c) [t]) with (solveEikonalNDims (g_leaf g) (c_occ c) [t]).
  apply one_dim_causal; assumption.
Qed.

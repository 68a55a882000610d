(** EikX.v - the model of solveEikonal over XR is the real update of EikR.v. *)
From Coq Require Import Reals Lra Permutation.
From Verif Require Import Base BaseFacts Num NumXR NumLaws Grid Eikonal Spec EikR.
Open Scope R_scope.

Lemma xfold_sum l a :
  fold_left (fun s t => nadd s t) (map XFin l : list XR) (XFin a : XR) = (XFin (a + Rsum l) : XR).
Proof.
  revert a; induction l as [|x r IH]; intros a; cbn [map fold_left].
  - change (Rsum []) with 0. f_equal; ring.
  - change (nadd (XFin a : XR) (XFin x)) with (XFin (a + x) : XR). rewrite IH.
    change (Rsum (x :: r)) with (x + Rsum r). f_equal; ring.
Qed.

Lemma xfold_sq l a :
  fold_left (fun s t => nadd s (nmul t t)) (map XFin l : list XR) (XFin a : XR) = (XFin (a + Sq l) : XR).
Proof.
  revert a; induction l as [|x r IH]; intros a; cbn [map fold_left].
  - change (Sq []) with 0. f_equal; ring.
  - change (nadd (XFin a : XR) (nmul (XFin x : XR) (XFin x))) with (XFin (a + x * x) : XR). rewrite IH.
    change (Sq (x :: r)) with (Rsqr x + Sq r). unfold Rsqr. f_equal; ring.
Qed.

Lemma xdiv_fin (a b : R) : b <> 0 -> ndiv (XFin a : XR) (XFin b) = (XFin (a / b) : XR).
Proof. intros H; cbn. unfold Reqb; destruct (Req_EM_T b 0); [contradiction|reflexivity]. Qed.

Lemma solveND_X h v l :
  0 < v -> l <> [] -> 0 <= disc (h / v) l ->
  solveEikonalNDims (XFin h : XR) (XFin v) (map XFin l : list XR) = (XFin (Rnd (h / v) l) : XR).
Proof.
  intros Hv Hne HD.
  destruct l as [|t [|t2 r]]; [congruence| |].
  - cbn [map solveEikonalNDims]. rewrite xdiv_fin by lra. reflexivity.
  - set (l := t :: t2 :: r) in *.
    assert (Hn : 0 < INR (length l)) by (apply lt_0_INR; cbn; lia).
    assert (E : solveEikonalNDims (XFin h : XR) (XFin v) (map XFin l : list XR) =
      (let sumT := fold_left (fun s t => nadd s t) (map XFin l : list XR) n0 in
       let sumTT := fold_left (fun s t => nadd s (nmul t t)) (map XFin l : list XR) n0 in
       let a : XR := nofZ (Z.of_nat (length (map XFin l : list XR))) in
       let b := nmul (nofZ (-2)%Z) sumT in
       let c := nsub sumTT (ndiv (nmul (XFin h : XR) (XFin h)) (nmul (XFin v : XR) (XFin v))) in
       let quad := nsub (nmul b b) (nmul (nmul (nofZ 4%Z) a) c) in
       if nltb quad n0 then ninf
       else ndiv (nadd (nopp b) (nsqrt quad)) (nmul (nofZ 2%Z) a) : XR)) by reflexivity.
    rewrite E; clear E. cbv zeta.
    change (@n0 XR) with (XFin 0 : XR).
    rewrite xfold_sum, xfold_sq, map_length, !Rplus_0_l.
    change (nmul (XFin h : XR) (XFin h)) with (XFin (h * h) : XR).
    change (nmul (XFin v : XR) (XFin v)) with (XFin (v * v) : XR).
    rewrite xdiv_fin by nra.
    change (nofZ (Z.of_nat (length l)) : XR) with (XFin (IZR (Z.of_nat (length l))) : XR).
    rewrite <- INR_IZR_INZ.
    replace (h * h / (v * v)) with (h / v * (h / v)) by (field; lra).
    set (f := h / v) in *.
    change (nsub (XFin (Sq l) : XR) (XFin (f * f))) with (XFin (Sq l + - (f * f)) : XR).
    change (nmul (nofZ (-2)%Z : XR) (XFin (Rsum l))) with (XFin (-2 * Rsum l) : XR).
    set (b := -2 * Rsum l) in *.
    change (nsub (nmul (XFin b : XR) (XFin b))
              (nmul (nmul (nofZ 4%Z) (XFin (INR (length l)) : XR)) (XFin (Sq l + - (f * f)))))
      with (XFin (b * b + - (4 * INR (length l) * (Sq l + - (f * f)))) : XR).
    replace (b * b + - (4 * INR (length l) * (Sq l + - (f * f)))) with (disc f l)
      by (unfold disc; fold b; ring).
    cbn [nltb XR xltb]. destruct (Rltb (disc f l) 0) eqn:E; [apply Rltb_true in E; lra|].
    change (nsqrt (XFin (disc f l) : XR)) with
      (if Rltb (disc f l) 0 then XNaN else XFin (sqrt (disc f l)) : XR).
    rewrite E.
    change (nadd (nopp (XFin b : XR)) (XFin (sqrt (disc f l)) : XR)) with (XFin (- b + sqrt (disc f l)) : XR).
    change (nmul (nofZ 2%Z : XR) (XFin (INR (length l)))) with (XFin (2 * INR (length l)) : XR).
    rewrite xdiv_fin by lra. reflexivity.
Qed.

Lemma solve_loop_X h v used rest :
  0 < h -> 0 < v -> ok_used (h / v) used -> Rsorted (used ++ rest) ->
  solve_loop (XFin h : XR) (XFin v) (map XFin used : list XR) (map XFin rest : list XR)
  = (XFin (Rloop (h / v) Rmargin used rest) : XR).
Proof.
  intros Hh Hv. assert (Hf : 0 < h / v) by (apply Rdiv_lt_0_compat; assumption).
  pose proof Rmargin_pos as Hm.
  revert used; induction rest as [|t r IH]; intros used Hok Hs.
  - cbn [map solve_loop Rloop]. destruct Hok as [Hne [_ [_ HD]]].
    apply solveND_X; auto; lra.
  - cbn [map solve_loop Rloop].
    assert (E : solveEikonalNDims (XFin h : XR) (XFin v) (map XFin used : list XR) = (XFin (Rnd (h / v) used) : XR)).
    { destruct Hok as [Hne [_ [_ HD]]]. apply solveND_X; auto; lra. }
    rewrite E. rewrite xr_margin.
    change (nltb (nsub (XFin (Rnd (h / v) used) : XR) (XFin t)) (XFin Rmargin : XR))
      with (Rltb (Rnd (h / v) used + - t) Rmargin).
    unfold Rltb. destruct (Rlt_dec (Rnd (h / v) used + - t) Rmargin) as [L|L];
      destruct (Rlt_dec (Rnd (h / v) used - t) Rmargin) as [L'|L']; try lra; [reflexivity|].
    rewrite <- (IH (used ++ [t])).
    + rewrite map_app. reflexivity.
    + apply ok_step; auto; [|lra].
      intros s Hin. clear - Hs Hin. induction used as [|x u IHu]; [destruct Hin|].
      cbn in Hs. inversion Hs as [|? ? Hs' HF]; subst. destruct Hin as [<-|Hin].
      * rewrite Forall_forall in HF. apply HF. apply in_or_app; right; left; reflexivity.
      * apply IHu; assumption.
    + rewrite <- app_assoc. exact Hs.
Qed.

Lemma isort_X l : isort (map XFin l : list XR) = map XFin (Rsort l).
Proof.
  induction l as [|x r IH]; [reflexivity|]. cbn [map isort Rsort]. rewrite IH. clear IH.
  generalize (Rsort r) as s; induction s as [|y s IH]; [reflexivity|].
  cbn [map insert_sorted Rinsert].
  change (nltb (XFin x : XR) (XFin y)) with (Rltb x y). unfold Rltb.
  destruct (Rlt_dec x y); [reflexivity|]. cbn [map]. rewrite IH. reflexivity.
Qed.

Lemma solve_values_X h v ts :
  0 < h -> 0 < v -> ts <> [] ->
  solve_values (XFin h : XR) (XFin v) (map XFin ts : list XR) = (XFin (RF (h / v) Rmargin ts) : XR).
Proof.
  intros Hh Hv Hne. unfold solve_values, RF. rewrite isort_X.
  pose proof (Rsort_sorted ts) as Hs.
  destruct (Rsort ts) as [|t r] eqn:E.
  { pose proof (Rsort_perm ts) as Hp. rewrite E in Hp. apply Permutation_nil in Hp. congruence. }
  cbn [map]. apply (solve_loop_X h v [t] r Hh Hv); [|exact Hs].
  apply ok_singleton, Rdiv_lt_0_compat; assumption.
Qed.

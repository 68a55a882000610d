(** FloatUpd.v - the update of one cell (eikonalsolver.hpp:61-105) in binary64:
    the double it returns nearly solves the upwind equation of its inputs. *)
From Coq Require Import Reals Lra Psatz List ZArith Lia Permutation Sorting.Sorted.
From Flocq Require Import Core IEEE754.BinarySingleNaN.
From Verif Require Import Base Num NumXR NumF64 NumLaws Eikonal Spec EikR FloatOps FloatEik FloatErr.
Import ListNotations.
Open Scope R_scope.

Notation len l := (INR (@length R l)).

(** error of one evaluation of the closed form with [n] dimensions, values up to [B] *)
Definition dlt (n f B : R) : R := 32 * (n * n) * (uu * (B * B)) / f.

Lemma dlt_nonneg n f B : 0 < f -> 0 <= dlt n f B.
Proof.
  intros Hf. unfold dlt, Rdiv. pose proof uu_pos. apply Rmult_le_pos; [|apply Rlt_le, Rinv_0_lt_compat, Hf].
  apply Rmult_le_pos; [nra|]. apply Rmult_le_pos; [lra|nra].
Qed.

Lemma dlt_small n f B : 0 < f -> 256 * (n * n * n * n) * (uu * (B * B)) <= f * f -> 8 * (n * n) * dlt n f B <= f.
Proof.
  intros Hf H. apply Rmult_le_reg_r with f; [exact Hf|]. unfold dlt.
  replace (8 * (n * n) * (32 * (n * n) * (uu * (B * B)) / f) * f) with (256 * (n * n * n * n) * (uu * (B * B))) by (field; lra).
  exact H.
Qed.

Lemma dlt_mono n f B B' : 0 < f -> 0 <= B <= B' -> dlt n f B <= dlt n f B'.
Proof.
  intros Hf H. unfold dlt, Rdiv. pose proof uu_pos. apply Rmult_le_compat_r; [apply Rlt_le, Rinv_0_lt_compat, Hf|].
  apply Rmult_le_compat_l; [nra|]. apply Rmult_le_compat_l; [lra|]. apply Rmult_le_compat; lra.
Qed.

Lemma rnd_0 : rnd 0 = 0.
Proof. apply round_0. typeclasses eauto. Qed.

Lemma rnd_pos_inv x : 0 < rnd x -> 0 < x.
Proof.
  intros H. destruct (Rlt_dec 0 x) as [L|L]; [exact L|exfalso].
  assert (rnd x <= rnd 0) by (apply rnd_le; lra). rewrite rnd_0 in *. lra.
Qed.

Lemma rnd_margin : rnd Rmargin = Rmargin.
Proof. exact (Fin_rnd _ _ Fin_margin). Qed.

Lemma rnd_lt_margin x : rnd x < Rmargin -> x < Rmargin.
Proof.
  intros H. destruct (Rlt_dec x Rmargin) as [L|L]; [exact L|exfalso].
  assert (rnd Rmargin <= rnd x) by (apply rnd_le; lra). rewrite rnd_margin in *. lra.
Qed.

(** the prefixes the loop runs through *)
Inductive chain (h v : f64) : list f64 -> Prop :=
| chain_one t : chain h v [t]
| chain_more p t : chain h v p ->
    Bltb (Bminus mode_NE (solveEikonalNDims (N := F64) h v p) t) (comp_margin (N := F64)) = false ->
    chain h v (p ++ [t]).

Lemma chain_ne h v p : chain h v p -> p <> [].
Proof. destruct 1; [discriminate|]. destruct p; discriminate. Qed.

Lemma loop_chain h v used rest : chain h v used ->
  exists p r, used ++ rest = p ++ r /\ chain h v p /\
    solve_loop (N := F64) h v used rest = solveEikonalNDims (N := F64) h v p /\
    match r with [] => True
    | t :: _ => Bltb (Bminus mode_NE (solveEikonalNDims (N := F64) h v p) t) (comp_margin (N := F64)) = true end.
Proof.
  revert used. induction rest as [|t r IH]; intros used Hc.
  - exists used, []. auto.
  - cbn [solve_loop].
    change (nltb (nsub (solveEikonalNDims (N := F64) h v used) t) comp_margin)
      with (Bltb (Bminus mode_NE (solveEikonalNDims (N := F64) h v used) t) (comp_margin (N := F64))).
    destruct (Bltb _ _) eqn:E.
    + exists used, (t :: r). auto.
    + destruct (IH (used ++ [t]) (chain_more _ _ _ _ Hc E)) as [p [q [A [B [C D]]]]].
      exists p, q. split; [|auto]. rewrite <- A, <- app_assoc. reflexivity.
Qed.

Lemma sorted_app_inv a b : Rsorted (a ++ b) -> Rsorted a /\ Rsorted b /\ (forall x y, In x a -> In y b -> x <= y).
Proof.
  induction a as [|x a IH]; cbn; intros H; [split; [constructor|]; split; [exact H|intros ? ? []]|].
  inversion H as [|? ? H1 H2]; subst. destruct (IH H1) as [A [B C]]. rewrite Forall_forall in H2. split; [|split; [exact B|]].
  - constructor; [exact A|]. apply Forall_forall. intros y Hy. apply H2, in_or_app. auto.
  - intros y z [<-|Hy] Hz; [apply H2, in_or_app; auto|apply C; auto].
Qed.

(** what the returned double [u] satisfies, up to [e]:
    it is not too early, not too late, and close to the smallest input *)
Record almost_update (f n : R) (ts : list R) (u : R) : Prop := {
  au_early : f * f <= upwind_sum ts (u + 3 * n * dlt n f (u + f));
  au_late : upwind_sum ts (u - Rmargin - dlt n f (u + f)) < f * f;
  au_ge : exists t, In t ts /\ t + f / (2 * n) <= u;
  au_le : forall t, In t ts -> u <= t + f + f / 8
}.

Section Update.
Variables (h v : f64) (H V : R).
Hypothesis Fh : Fin h H.
Hypothesis Fv : Fin v V.
Hypothesis Rh : lo <= H <= hi.
Hypothesis Rv : lo <= V <= hi.
Notation f := (H / V).
Variable n : R.
Hypothesis Hn1 : n <= 1000.

Lemma fpos : 0 < f. Proof. exact (proj2 (f_range H V Rh Rv)). Qed.

Lemma len_ge1 (l : list R) : l <> [] -> 1 <= len l.
Proof. intros Hl. destruct l; [contradiction|]. cbn [length]. rewrite S_INR. pose proof (pos_INR (length l)). lra. Qed.

(** one prefix *)
Lemma chain_near B p : chain h v p -> f <= B -> B <= tmax -> 256 * (n * n * n * n) * (uu * (B * B)) <= f * f ->
  forall ps, Forall2 Fin p ps -> Rsorted ps -> (forall s, In s ps -> 0 <= s <= B) -> len ps <= n ->
  near f ps /\ (exists u, Fin (solveEikonalNDims (N := F64) h v p) u /\ Rabs (u - Rnd f ps) <= dlt n f B) /\
  (forall s, In s ps -> s <= Rnd f ps + 2 * n * dlt n f B) /\ Rnd f ps <= hd 0 ps + f.
Proof.
  intros Hc HfB HBt Hsm. pose proof fpos as Hf. pose proof uu_pos as U0.
  assert (E0 : 0 <= uu * (B * B)) by (apply Rmult_le_pos; nra).
  assert (Hd0 := dlt_nonneg n f B Hf). assert (Hd8 := dlt_small n f B Hf Hsm).
  induction Hc as [t|p t Hc IH Ht]; intros ps HF Hs Hb Hl.
  - inversion HF as [|? r ? rs F1' F2']; subst. inversion F2'; subst.
    assert (Hr : 0 <= r <= B) by (apply Hb; left; reflexivity).
    cbn [length INR] in Hl.
    destruct (F1 h v H V Fh Fv Rh Rv B HfB HBt t r F1' Hr) as [u [Fu Eu]].
    split; [apply near_singleton|]. split; [exists u; split; [exact Fu|]|].
    + eapply Rle_trans; [exact Eu|]. unfold dlt, Rdiv. apply Rmult_le_compat_r; [apply Rlt_le, Rinv_0_lt_compat, Hf|].
      apply Rmult_le_compat_r; [exact E0|]. nra.
    + rewrite Rnd_singleton. split; [|cbn; lra]. intros s [<-|[]].
      assert (0 <= 2 * n * dlt n f B) by (apply Rmult_le_pos; lra). lra.
  - apply Forall2_app_inv_l in HF. destruct HF as [ps1 [ps2 [HF1 [HF2 ->]]]].
    inversion HF2 as [|? r ? rs F1' F2']; subst. inversion F2'; subst. clear HF2 F2'.
    destruct (sorted_app_inv _ _ Hs) as [Hs1 [_ Hle]].
    rewrite app_length, plus_INR in Hl. cbn [length INR] in Hl.
    assert (Hb1 : forall s, In s ps1 -> 0 <= s <= B) by (intros s Hin; apply Hb, in_or_app; auto).
    assert (Hbr : 0 <= r <= B) by (apply Hb, in_or_app; right; left; reflexivity).
    destruct (IH ps1 HF1 Hs1 Hb1 ltac:(lra)) as [HN [[u [Fu Eu]] [Hup Hhd]]].
    assert (Hne : ps1 <> []) by exact (nr_ne _ _ HN). pose proof (len_ge1 _ Hne) as Hk.
    assert (Hn2 : 2 <= n) by lra.
    apply Rabs_le_inv in Eu.
    assert (Hhd0 : 0 <= hd 0 ps1 <= B) by (destruct ps1; [contradiction|apply Hb1; left; reflexivity]).
    assert (Hroot : 0 <= Rnd f ps1).
    { pose proof (near_min f Hf ps1 0 HN ltac:(intros s Hin; apply Hb1, Hin)) as Hm. rewrite Rmult_0_r in Hm.
      apply Rmult_le_reg_l with (len ps1); [lra|]. rewrite Rmult_0_r. lra. }
    assert (Hdf : dlt n f B <= f) by (assert (4 <= n * n) by nra; assert (8 * 4 * dlt n f B <= 8 * (n * n) * dlt n f B) by (apply Rmult_le_compat_r; lra); lra).
    assert (Fd : Fin (Bminus mode_NE (solveEikonalNDims (N := F64) h v p) t) (rnd (u - r))).
    { apply Fin_minus; [exact Fu|exact F1'|]. apply Rle_trans with (4 * B); [apply Rabs_le; lra|].
      apply (lin_big H V Rh Rv B HfB HBt). split; [lra|apply num60; lia]. }
    rewrite (Fin_lt _ _ _ _ Fd Fin_margin) in Ht. apply Rltb_false in Ht. pose proof Rmargin_pos.
    assert (Hru : r < u) by (assert (0 < u - r) by (apply rnd_pos_inv; lra); lra).
    destruct (near_step f Hf ps1 r n (dlt n f B) HN ltac:(intros s Hin; apply Hle; [exact Hin|left; reflexivity]) ltac:(lra) Hd0 Hd8 ltac:(lra))
      as [HN' [Hdec Hr']].
    split; [exact HN'|]. split; [|split].
    + assert (Hlen2 : (2 <= length (ps1 ++ [r]))%nat) by (rewrite app_length; cbn; destruct ps1; [contradiction|cbn; lia]).
      assert (Hl2 : len (ps1 ++ [r]) <= n) by (rewrite app_length, plus_INR; cbn [length INR]; lra).
      assert (Hl1 : 2 <= len (ps1 ++ [r])) by (rewrite app_length, plus_INR; cbn [length INR]; lra).
      set (k := len (ps1 ++ [r])) in *.
      assert (Hkk : 0 <= k * k <= n * n) by (split; nra).
      assert (Hk4 : k * k * k * k <= n * n * n * n).
      { replace (k * k * k * k) with ((k * k) * (k * k)) by ring. replace (n * n * n * n) with ((n * n) * (n * n)) by ring.
        apply Rmult_le_compat; lra. }
      destruct (Fnd h v H V Fh Fv Rh Rv B HfB HBt (p ++ [t]) (ps1 ++ [r])) as [u' [Fu' Eu']].
      * apply Forall2_app; [exact HF1|constructor; [exact F1'|constructor]].
      * exact Hb.
      * exact Hlen2.
      * fold k. lra.
      * exact (nr_disc _ _ HN').
      * fold k. eapply Rle_trans; [|exact Hsm]. apply Rmult_le_compat_r; [exact E0|lra].
      * exists u'. split; [exact Fu'|]. eapply Rle_trans; [exact Eu'|]. fold k. unfold dlt, Rdiv.
        apply Rmult_le_compat_r; [apply Rlt_le, Rinv_0_lt_compat, Hf|]. apply Rmult_le_compat_r; [exact E0|lra].
    + intros s Hin. apply in_app_or in Hin. destruct Hin as [Hin|[<-|[]]]; [|exact Hr'].
      apply Rle_trans with r; [apply Hle; [exact Hin|left; reflexivity]|exact Hr'].
    + destruct ps1; [contradiction|]. cbn [hd app] in *. eapply Rle_trans; [exact Hdec|exact Hhd].
Qed.

(** the sorted inputs *)
Lemma isort_Fin l ts : Forall2 Fin l ts -> Forall2 Fin (isort (N := F64) l) (Rsort ts).
Proof.
  induction 1 as [|x t l ts Fx HF IH]; [constructor|]. cbn [isort Rsort].
  revert IH. generalize (isort (N := F64) l) as a. generalize (Rsort ts) as b. clear -Fx. intros b a Hab.
  induction Hab as [|y s a b Fy Hab IH]; [constructor; [exact Fx|constructor]|]. cbn [insert_sorted Rinsert].
  change (nltb (x : F64) y) with (Bltb x y). rewrite (Fin_lt _ _ _ _ Fx Fy). unfold Rltb.
  destruct (Rlt_dec t s); [repeat (constructor; [assumption|]); exact Hab|constructor; [exact Fy|exact IH]].
Qed.

Theorem float_update B l ts : Forall2 Fin l ts -> ts <> [] -> len ts <= n -> (forall t, In t ts -> 0 <= t <= B) ->
  B + 3 * f <= tmax -> 256 * (n * n * n * n) * (uu * ((B + 3 * f) * (B + 3 * f))) <= f * f ->
  exists u, Fin (solve_values (N := F64) h v l) u /\ 0 < u <= B + 2 * f /\ almost_update f n ts u.
Proof.
  intros HF Hne Hlen Hb HBt Hsm. pose proof fpos as Hf.
  pose proof (isort_Fin _ _ HF) as HFs. pose proof (Rsort_perm ts) as Hp. pose proof (Rsort_sorted ts) as Hs.
  unfold solve_values. destruct HFs as [|t0 r0 l1 ts1 Ft0 HF1].
  { apply Permutation_nil in Hp. contradiction. }
  destruct (loop_chain h v [t0] l1 (chain_one _ _ _)) as [p [q [Epq [Hc [El Hq]]]]]. cbn [app] in Epq. 
  enough (X : exists u, Fin (solveEikonalNDims (N := F64) h v p) u /\ 0 < u <= B + 2 * f /\ almost_update f n ts u)
    by (rewrite <- El in X; exact X). clear El.
  assert (HFa : Forall2 Fin (p ++ q) (r0 :: ts1)) by (rewrite <- Epq; constructor; assumption).
  apply Forall2_app_inv_l in HFa. destruct HFa as [ps [qs [HFp [HFq Eps]]]]. rewrite Eps in *.
  assert (Hlen' : len (ps ++ qs) <= n) by (rewrite (Permutation_length Hp); exact Hlen).
  assert (Hb' : forall s, In s (ps ++ qs) -> 0 <= s <= B) by (intros s Hin; apply Hb, (Permutation_in s Hp), Hin).
  destruct (sorted_app_inv _ _ Hs) as [Hsp [Hsq Hle]].
  rewrite app_length, plus_INR in Hlen'. pose proof (pos_INR (length qs)) as Hq0.
  assert (HB0 : 0 <= B) by (destruct ts as [|t ts']; [contradiction|specialize (Hb t (or_introl eq_refl)); lra]).
  set (B0 := B + 3 * f) in *.
  assert (Hbp : forall s, In s ps -> 0 <= s <= B) by (intros s Hin; apply Hb', in_or_app; auto).
  destruct (chain_near B0 p Hc ltac:(unfold B0; lra) HBt Hsm ps HFp Hsp ltac:(intros s Hin; specialize (Hbp s Hin); unfold B0; lra) ltac:(lra))
    as [HN [[u [Fu Eu]] [Hup Hhd]]].
  pose proof (dlt_nonneg n f B0 Hf) as D0. pose proof (dlt_small n f B0 Hf Hsm) as D8.
  assert (Hpne : ps <> []) by exact (nr_ne _ _ HN). pose proof (len_ge1 _ Hpne) as Hk.
  assert (Hn : 1 <= n) by lra.
  apply Rabs_le_inv in Eu.
  assert (Hhe : hd 0 ps = r0) by (destruct ps; [contradiction|]; cbn in Eps; injection Eps as -> _; reflexivity).
  assert (Hr0 : In r0 ps) by (destruct ps as [|x ps']; [contradiction|left; exact Hhe]).
  assert (Hr0m : forall s, In s (ps ++ qs) -> r0 <= s).
  { rewrite <- Eps in Hs |- *. inversion Hs as [|? ? _ Hall]; subst. rewrite Forall_forall in Hall. intros s [<-|Hin]; [lra|apply Hall, Hin]. }
  pose proof (Hbp r0 Hr0) as Hr0B. rewrite Hhe in Hhd.
  assert (Dn : 8 * n * dlt n f B0 <= f) by (apply Rle_trans with (8 * (n * n) * dlt n f B0); [apply Rmult_le_compat_r; nra|exact D8]).
  assert (D1 : 8 * dlt n f B0 <= f) by (apply Rle_trans with (8 * n * dlt n f B0); [apply Rmult_le_compat_r; lra|exact Dn]).
  (* lower bound of the root *)
  assert (Hrl : r0 + 7 / 10 * (f / n) <= Rnd f ps).
  { pose proof (near_min f Hf ps r0 HN ltac:(intros s Hin; apply Hr0m, in_or_app; auto)) as Hm.
    assert (Hfn : 7 / 10 * (f / n) * len ps <= 7 / 10 * f).
    { apply Rle_trans with (7 / 10 * (f / n) * n).
      - apply Rmult_le_compat_l; [|lra]. apply Rmult_le_pos; [lra|]. apply Rlt_le, Rdiv_lt_0_compat; lra.
      - right. generalize f. intros y. field. lra. }
    apply Rmult_le_reg_l with (len ps); [lra|]. nra. }
  assert (Hdn : dlt n f B0 <= 1 / 8 * (f / n)).
  { apply Rmult_le_reg_r with (8 * n); [lra|]. replace (1 / 8 * (f / n) * (8 * n)) with f by (generalize f; intros y; field; lra). lra. }
  assert (Hfn0 : 0 < f / n) by (apply Rdiv_lt_0_compat; lra).
  assert (Hu1 : r0 + f / (2 * n) <= u).
  { replace (f / (2 * n)) with (1 / 2 * (f / n)) by (generalize f; intros y; field; lra). lra. }
  assert (Hf2n : 0 < f / (2 * n)) by (apply Rdiv_lt_0_compat; lra).
  assert (Hu2 : u <= r0 + f + f / 8) by lra.
  assert (HuB : u + f <= B0) by (unfold B0; lra).
  (* again with a bound close to u *)
  assert (Hsm1 : 256 * (n * n * n * n) * (uu * ((u + f) * (u + f))) <= f * f).
  { eapply Rle_trans; [|exact Hsm]. pose proof uu_pos. apply Rmult_le_compat_l; [nra|]. apply Rmult_le_compat_l; [lra|].
    apply Rmult_le_compat; lra. }
  assert (Hin1 : forall s, In s ps -> 0 <= s <= u + f).
  { intros s Hin. split; [apply Hbp, Hin|]. specialize (Hup s Hin). lra. }
  destruct (chain_near (u + f) p Hc ltac:(lra) ltac:(unfold B0 in *; lra) Hsm1 ps HFp Hsp Hin1 ltac:(lra))
    as [_ [[u' [Fu' Eu']] [Hup' _]]].
  assert (u' = u) by (eapply Fin_unique; eassumption). subst u'. apply Rabs_le_inv in Eu'.
  pose proof (dlt_nonneg n f (u + f) Hf) as E0. set (d := dlt n f (u + f)) in *.
  exists u. split; [exact Fu|]. split; [lra|]. constructor; fold d.
  - rewrite <- (US_perm _ _ _ Hp), US_app. pose proof (US_nonneg qs (u + 3 * n * d)).
    assert (f * f <= upwind_sum ps (Rnd f ps + 2 * n * d)).
    { apply US_above_root; auto. apply Rmult_le_pos; lra. }
    assert (upwind_sum ps (Rnd f ps + 2 * n * d) <= upwind_sum ps (u + 3 * n * d)); [|lra].
    apply US_mono. assert (d <= n * d) by nra. lra.
  - rewrite <- (US_perm _ _ _ Hp), US_app. pose proof Rmargin_pos as HM.
    assert (Hz : upwind_sum qs (u - Rmargin - d) = 0).
    { apply US_zero. intros t Hin. destruct HFq as [|a b q' qs' Fa Hq']; [destruct Hin|].
      assert (Fd : Fin (Bminus mode_NE (solveEikonalNDims (N := F64) h v p) a) (rnd (u - b))).
      { apply Fin_minus; [exact Fu|exact Fa|]. pose proof (Hb' b ltac:(apply in_or_app; right; left; reflexivity)).
        apply Rle_trans with (4 * B0); [apply Rabs_le; unfold B0 in *; lra|].
        apply (lin_big H V Rh Rv B0 ltac:(unfold B0; lra) HBt). split; [lra|apply num60; lia]. }
      rewrite (Fin_lt _ _ _ _ Fd Fin_margin) in Hq. apply Rltb_true in Hq. apply rnd_lt_margin in Hq.
      assert (b <= t); [|lra]. inversion Hsq as [|? ? _ Hall]; subst. rewrite Forall_forall in Hall.
      destruct Hin as [<-|Hin]; [lra|apply Hall, Hin]. }
    rewrite Hz, Rplus_0_r. apply US_below_root; auto. lra.
  - exists r0. split; [apply (Permutation_in r0 Hp), in_or_app; auto|exact Hu1].
  - intros t Hin. apply (Permutation_in t (Permutation_sym Hp)) in Hin. specialize (Hr0m t Hin). lra.
Qed.

End Update.

(** FloatOps.v - each operation of binary64 as an operation on reals with an
    error bound (from Flocq's correctness theorems). *)
From Coq Require Import Reals Lra ZArith Lia.
From Flocq Require Import Core IEEE754.BinarySingleNaN Relative.
From Verif Require Import Base Num NumXR NumF64 NumLaws.
Open Scope R_scope.

(** unit roundoff and half the smallest subnormal *)
Definition uu : R := / 2 * bpow radix2 (-52).
Definition eta : R := / 2 * bpow radix2 (-1074).
Definition big : R := bpow radix2 1000.

Definition rnd (x : R) : R := round radix2 (SpecFloat.fexp prec64 emax64) (round_mode mode_NE) x.

Lemma uu_val : uu = / 9007199254740992.
Proof. unfold uu. change (bpow radix2 (-52)) with (/ IZR (Zpower_pos 2 52)). change (Zpower_pos 2 52) with 4503599627370496%Z. lra. Qed.
Lemma uu_pos : 0 < uu. Proof. rewrite uu_val; lra. Qed.
Lemma eta_pos : 0 < eta. Proof. unfold eta. pose proof (bpow_gt_0 radix2 (-1074)). lra. Qed.
Lemma big_pos : 0 < big. Proof. apply bpow_gt_0. Qed.

#[global] Instance fexp64 : Valid_exp (SpecFloat.fexp prec64 emax64) := fexp_correct prec64 emax64 Hprec64.

Lemma rnd_err x : Rabs (rnd x - x) <= uu * Rabs x + eta.
Proof.
  destruct (error_N_FLT radix2 (-1074) 53 ltac:(lia) (fun x => negb (Z.even x)) x) as [e [h [He [Hh [_ E]]]]].
  change (rnd x) with (round radix2 (FLT_exp (-1074) 53) (Znearest (fun x => negb (Z.even x))) x).
  rewrite E. replace (x * (1 + e) + h - x) with (x * e + h) by ring.
  eapply Rle_trans; [apply Rabs_triang|]. rewrite Rabs_mult. apply Rplus_le_compat; [|exact Hh].
  rewrite Rmult_comm. apply Rmult_le_compat_r; [apply Rabs_pos|exact He].
Qed.

(** without the absolute term when x is not tiny *)
Lemma rnd_rel x : bpow radix2 (-1000) <= Rabs x -> Rabs (rnd x - x) <= uu * Rabs x.
Proof.
  intros H. pose proof (relative_error_N_FLT radix2 (-1074) 53 ltac:(lia) (fun x => negb (Z.even x)) x) as R.
  apply R. eapply Rle_trans; [|exact H]. apply bpow_le. lia.
Qed.

Lemma rnd_le x y : x <= y -> rnd x <= rnd y.
Proof. apply round_le; typeclasses eauto. Qed.

Lemma rnd_id (x : f64) : rnd (B2R x) = B2R x.
Proof. apply round_generic; [typeclasses eauto|apply generic_format_B2R]. Qed.

Lemma rnd_big x : Rabs x <= big -> Rabs (rnd x) <= big.
Proof.
  apply abs_round_le_generic; try typeclasses eauto.
  apply generic_format_bpow. unfold SpecFloat.fexp, SpecFloat.emin, prec64, emax64. lia.
Qed.

Lemma rnd_no_overflow x : Rabs x <= big -> Rlt_bool (Rabs (rnd x)) (bpow radix2 emax64) = true.
Proof.
  intros H. apply Rlt_bool_true. eapply Rle_lt_trans; [apply rnd_big, H|]. apply bpow_lt. unfold emax64; lia.
Qed.

(** [x] is the finite double of value [r] *)
Definition Fin (x : f64) (r : R) : Prop := is_finite x = true /\ B2R x = r.

Lemma Fin_toX x r : Fin x r -> toX x = XFin r.
Proof. intros [F <-]. apply toX_finite, F. Qed.
Lemma toX_Fin x r : toX x = XFin r -> Fin x r.
Proof.
  destruct x as [s|[]| |s m e B]; cbn [toX]; intros H; try discriminate; injection H as <-; split; reflexivity.
Qed.
Lemma Fin_rnd x r : Fin x r -> rnd r = r.
Proof. intros [_ <-]. apply rnd_id. Qed.

Lemma Fin_plus x y a b : Fin x a -> Fin y b -> Rabs (a + b) <= big -> Fin (Bplus mode_NE x y) (rnd (a + b)).
Proof.
  intros [Fx <-] [Fy <-] H. generalize (Bplus_correct prec64 emax64 Hprec64 Hmax64 mode_NE x y Fx Fy).
  fold (rnd (B2R x + B2R y)). rewrite rnd_no_overflow by exact H. intros [A [B _]]. split; assumption.
Qed.

Lemma Fin_minus x y a b : Fin x a -> Fin y b -> Rabs (a - b) <= big -> Fin (Bminus mode_NE x y) (rnd (a - b)).
Proof.
  intros [Fx <-] [Fy <-] H. generalize (Bminus_correct prec64 emax64 Hprec64 Hmax64 mode_NE x y Fx Fy).
  fold (rnd (B2R x - B2R y)). rewrite rnd_no_overflow by exact H. intros [A [B _]]. split; assumption.
Qed.

Lemma Fin_mult x y a b : Fin x a -> Fin y b -> Rabs (a * b) <= big -> Fin (Bmult mode_NE x y) (rnd (a * b)).
Proof.
  intros [Fx <-] [Fy <-] H. generalize (Bmult_correct prec64 emax64 Hprec64 Hmax64 mode_NE x y).
  fold (rnd (B2R x * B2R y)). rewrite rnd_no_overflow by exact H. intros [A [B _]]. split; [rewrite B, Fx, Fy; reflexivity|exact A].
Qed.

Lemma Fin_div x y a b : Fin x a -> Fin y b -> b <> 0 -> Rabs (a / b) <= big -> Fin (Bdiv mode_NE x y) (rnd (a / b)).
Proof.
  intros [Fx <-] [Fy <-] Hb H. generalize (Bdiv_correct prec64 emax64 Hprec64 Hmax64 mode_NE x y Hb).
  fold (rnd (B2R x / B2R y)). rewrite rnd_no_overflow by exact H. intros [A [B _]]. split; [rewrite B; exact Fx|exact A].
Qed.

Lemma Fin_opp x a : Fin x a -> Fin (Bopp x) (- a).
Proof. intros [Fx <-]. split; [rewrite is_finite_Bopp; exact Fx|apply B2R_Bopp]. Qed.

Lemma Fin_sqrt x a : Fin x a -> 0 <= a -> Fin (Bsqrt mode_NE x) (rnd (sqrt a)).
Proof.
  intros [Fx <-] Ha. destruct (Bsqrt_correct prec64 emax64 Hprec64 Hmax64 mode_NE x) as [A [B _]].
  split; [|exact A]. rewrite B. destruct x as [s| | |s m e Bd]; try discriminate Fx; [reflexivity|].
  destruct s; [|reflexivity]. exfalso. cbn in Ha.
  assert (F2R (Float radix2 (Z.neg m) e) < 0) by (apply F2R_lt_0; reflexivity). unfold F2R in *; cbn in *; lra.
Qed.

Lemma Fin_lt x y a b : Fin x a -> Fin y b -> Bltb x y = Rltb a b.
Proof. intros Hx Hy. rewrite Bltb_toX, (Fin_toX _ _ Hx), (Fin_toX _ _ Hy). reflexivity. Qed.

Lemma Fin_unique x a b : Fin x a -> Fin x b -> a = b.
Proof. intros [_ <-] [_ <-]. reflexivity. Qed.

(** small integers are exact *)
Lemma Fin_ofZ z : (Z.abs z <= 9007199254740992)%Z -> Fin (f64_of_Z z) (IZR z).
Proof.
  intros Hz.
  assert (HF : F2R (Float radix2 z 0) = IZR z) by (unfold F2R; cbn; ring).
  assert (Hr : rnd (IZR z) = IZR z).
  { apply round_generic; [typeclasses eauto|]. 
    destruct (Z.eq_dec (Z.abs z) 9007199254740992) as [E|E].
    - assert (Ez : z = (9007199254740992)%Z \/ z = (-9007199254740992)%Z) by lia.
      assert (G : generic_format radix2 (SpecFloat.fexp prec64 emax64) (bpow radix2 53)).
      { apply generic_format_bpow. unfold SpecFloat.fexp, SpecFloat.emin, prec64, emax64. lia. }
      destruct Ez as [->| ->].
      + replace (IZR 9007199254740992) with (bpow radix2 53) by (cbn; lra). exact G.
      + replace (IZR (-9007199254740992)) with (- bpow radix2 53) by (cbn; lra). apply generic_format_opp, G.
    - rewrite <- HF. apply (generic_format_FLT radix2 (-1074) 53).
      apply (FLT_spec _ _ _ _ (Float radix2 z 0)); [reflexivity| |cbn; lia]. cbn [Fnum].
      change (radix_val radix2 ^ 53)%Z with 9007199254740992%Z. lia. }
  generalize (binary_normalize_correct prec64 emax64 Hprec64 Hmax64 mode_NE z 0 false). cbv zeta.
  rewrite HF. fold (rnd (IZR z)). rewrite rnd_no_overflow.
  - intros [A [B _]]. split; [exact B|]. unfold f64_of_Z. rewrite A. exact Hr.
  - rewrite <- abs_IZR. apply Rle_trans with (IZR 9007199254740992); [apply IZR_le, Hz|].
    change 9007199254740992%Z with (2 ^ 53)%Z. change (IZR (2 ^ 53)) with (IZR (radix_val radix2 ^ 53)). rewrite IZR_Zpower by lia.
    apply bpow_le; lia.
Qed.

(** COMP_MARGIN is the same number *)
Lemma Fin_margin : Fin (comp_margin (N := F64)) Rmargin.
Proof.
  assert (A : Fin (f64_of_Z 100000) (IZR 100000)) by (apply Fin_ofZ; lia).
  assert (B : Fin (f64_of_Z 4503599627370496) (IZR 4503599627370496)) by (apply Fin_ofZ; lia).
  assert (E : rnd (IZR 100000 / IZR 4503599627370496) = Rmargin).
  { assert (HF : IZR 100000 / IZR 4503599627370496 = F2R (Float radix2 100000 (-52))).
    { unfold F2R. cbn [Fnum Fexp]. change (bpow radix2 (-52)) with (/ IZR (Zpower_pos 2 52)). reflexivity. }
    transitivity (IZR 100000 / IZR 4503599627370496); [|unfold Rmargin; lra].
    apply round_generic; [typeclasses eauto|]. rewrite HF.
    apply (generic_format_FLT radix2 (-1074) 53).
    apply (FLT_spec _ _ _ _ (Float radix2 100000 (-52))); [reflexivity|cbn; lia|cbn; lia]. }
  rewrite <- E. apply Fin_div; [exact A|exact B|apply IZR_neq; lia|].
  - rewrite Rabs_pos_eq by lra. apply Rle_trans with (bpow radix2 0); [change (bpow radix2 0) with 1; lra|apply bpow_le; lia].
Qed.

(** NumWf.v - the comparison isTimeBetterThan is a strict order, and well
    founded on doubles and on non-negative exact times (C49, termination). *)
From Coq Require Import Reals Lra ZArith Bool Wellfounded.
From Flocq Require Import Core IEEE754.BinarySingleNaN.
From Verif Require Import Base Num NumXR NumF64 NumLaws.
Open Scope Z_scope.

Section Order.
Context {N : Num}.
Variable L : NumLaws N.

Lemma better_irrefl (x : N) : isTimeBetterThan x x = false.
Proof.
  destruct (isTimeBetterThan x x) eqn:E; [|reflexivity]. apply (nl_better_lt N L) in E.
  rewrite (nl_irrefl N L) in E. discriminate.
Qed.

Lemma better_trans (x y z : N) : isTimeBetterThan x y = true -> isTimeBetterThan y z = true -> isTimeBetterThan x z = true.
Proof.
  intros H1 H2. apply (nl_better_lt N L) in H2. unfold isTimeBetterThan in *. eapply (nl_trans N L); eauto.
Qed.

Lemma better_asym (x y : N) : isTimeBetterThan x y = true -> isTimeBetterThan y x = false.
Proof.
  intros H1. destruct (isTimeBetterThan y x) eqn:H2; [|reflexivity].
  pose proof (better_trans _ _ _ H1 H2) as H. rewrite better_irrefl in H. discriminate.
Qed.
End Order.

(** ** doubles *)

(** exact value times 2^1074, an integer *)
Definition fkey (x : f64) : Z :=
  match x with
  | B754_finite s m e _ => cond_Zopp s (Zpos m) * 2 ^ (e + 1074)
  | _ => 0
  end.

Lemma fkey_spec (x : f64) : is_finite x = true -> (IZR (fkey x) = B2R x * bpow radix2 1074)%R.
Proof.
  destruct x as [s| | |s m e Hb]; cbn [is_finite]; intros H; try discriminate.
  - cbn. ring.
  - cbn [fkey B2R]. unfold F2R. cbn [Fnum Fexp]. rewrite Rmult_assoc, <- bpow_plus, mult_IZR. f_equal.
    assert (He : -1074 <= e).
    { unfold SpecFloat.bounded in Hb. apply andb_prop in Hb. destruct Hb as [Hc _].
      unfold SpecFloat.canonical_mantissa in Hc. apply Zeq_bool_eq in Hc.
      unfold SpecFloat.fexp, SpecFloat.emin, prec64, emax64 in Hc. lia. }
    change 2 with (radix_val radix2). rewrite IZR_Zpower by lia. reflexivity.
Qed.

Lemma fkey_bound (x : f64) : is_finite x = true -> - 2 ^ 2098 < fkey x.
Proof.
  intros H. apply lt_IZR. rewrite fkey_spec by exact H. rewrite opp_IZR.
  rewrite (IZR_Zpower radix2 2098 ltac:(discriminate) : IZR (2 ^ 2098) = bpow radix2 2098).
  change (bpow radix2 2098) with (bpow radix2 (1024 + 1074)). rewrite bpow_plus.
  pose proof (abs_B2R_lt_emax prec64 emax64 x) as Hb. change (bpow radix2 emax64) with (bpow radix2 1024) in Hb.
  pose proof (Rle_abs (- B2R x)) as Ha. rewrite Rabs_Ropp in Ha.
  pose proof (bpow_gt_0 radix2 1074) as Hg. revert Hb Ha Hg.
  generalize (Rabs (B2R x)); intros s. generalize (B2R x); intros r. generalize (bpow radix2 1024) (bpow radix2 1074). intros a b Hb Ha Hg.
  assert (Hr : (0 < (r + a) * b)%R) by (apply Rmult_lt_0_compat; lra). lra.
Qed.

Definition flt (x y : f64) : Prop := Bltb x y = true.

Lemma flt_finite_acc (x : f64) : is_finite x = true -> Acc flt x.
Proof.
  intros Hx.
  assert (Hall : forall n y, is_finite y = true -> (Z.to_nat (fkey y + 2 ^ 2098) < n)%nat -> Acc flt y).
  { induction n as [|n IH]; intros y Hy Hn; [lia|]. constructor. intros z Hz. unfold flt in Hz.
    destruct (is_finite z) eqn:Fz.
    - apply IH; [exact Fz|]. rewrite Bltb_correct in Hz by assumption.
      assert (Hlt : (B2R z < B2R y)%R) by (destruct (Rlt_bool_spec (B2R z) (B2R y)); [assumption|discriminate]).
      assert (fkey z < fkey y).
      { apply lt_IZR. rewrite !fkey_spec by assumption. pose proof (bpow_gt_0 radix2 1074). nra. }
      pose proof (fkey_bound z Fz). pose proof (fkey_bound y Hy). lia.
    - constructor. intros w Hw. unfold flt in Hw. rewrite Bltb_toX in *. rewrite (toX_finite y Hy) in Hz.
      destruct z as [|[]| |]; try discriminate. destruct (toX w); discriminate Hw. }
  eapply Hall; eauto.
Qed.

Lemma flt_wf : well_founded flt.
Proof.
  intros x. destruct (is_finite x) eqn:Fx; [apply flt_finite_acc, Fx|].
  assert (Hnan : forall y, toX y = XNaN -> Acc flt y).
  { intros y Hy. constructor. intros z Hz. unfold flt in Hz. rewrite Bltb_toX, Hy in Hz. destruct (toX z); discriminate. }
  assert (Hninf : forall y, toX y = XNInf -> Acc flt y).
  { intros y Hy. constructor. intros z Hz. unfold flt in Hz. rewrite Bltb_toX, Hy in Hz. destruct (toX z); discriminate. }
  constructor. intros y Hy. unfold flt in Hy. rewrite Bltb_toX in Hy.
  destruct (is_finite y) eqn:Fy; [apply flt_finite_acc, Fy|].
  destruct y as [|[]| |] eqn:Ey; try discriminate Fy.
  - apply Hninf. reflexivity.
  - cbn [toX] in Hy. destruct (toX x); discriminate.
  - apply Hnan. reflexivity.
Qed.

Lemma better_wf_F64 : well_founded (fun x y : F64 => isTimeBetterThan x y = true).
Proof.
  eapply wf_incl; [|apply flt_wf]. intros x y H. exact (F64_better_lt x y H).
Qed.

(** ** non-negative exact times *)
Definition xgood (x : XR) : Prop := match x with XFin r => (0 <= r)%R | _ => False end.

Lemma better_wf_XR : well_founded (fun x y : XR => isTimeBetterThan x y = true /\ xgood x).
Proof.
  set (R0 := fun x y : XR => isTimeBetterThan x y = true /\ xgood x).
  assert (Hm := Rmargin_pos).
  assert (Hfin : forall n r, (r < INR n * Rmargin)%R -> Acc R0 (XFin r : XR)).
  { induction n as [|n IH]; intros r Hr.
    - constructor. intros y [Hy Hg]. destruct y as [s| | |]; cbn in Hg; try contradiction.
      unfold isTimeBetterThan in Hy. rewrite xr_margin in Hy. cbn in Hy. apply Rltb_true in Hy. cbn in Hr. lra.
    - constructor. intros y [Hy Hg]. destruct y as [s| | |]; cbn in Hg; try contradiction.
      unfold isTimeBetterThan in Hy. rewrite xr_margin in Hy. cbn in Hy. apply Rltb_true in Hy.
      apply IH. rewrite S_INR in Hr. lra. }
  assert (Hfin' : forall r, Acc R0 (XFin r : XR)).
  { intros r. destruct (Rle_dec 0 r) as [H|H].
    - destruct (archimed (r / Rmargin)) as [Hu _]. apply (Hfin (Z.to_nat (up (r / Rmargin)))).
      assert (0 <= r / Rmargin)%R by (apply Rmult_le_pos; [assumption|left; apply Rinv_0_lt_compat; assumption]).
      assert (0 <= up (r / Rmargin))%Z by (apply le_IZR; lra).
      rewrite INR_IZR_INZ, Z2Nat.id by assumption.
      apply Rmult_lt_reg_r with (/ Rmargin)%R; [apply Rinv_0_lt_compat, Hm|].
      rewrite Rmult_assoc, Rinv_r, Rmult_1_r by lra. exact Hu.
    - apply (Hfin O). cbn. lra. }
  intros x. constructor. intros y [Hy Hg]. destruct y; cbn in Hg; try contradiction. apply Hfin'.
Qed.

(** ** vectors: one entry replaced by a better one *)
Section Vec.
Context {A : Type}.
Variable R0 : A -> A -> Prop.

Inductive vec1 : list A -> list A -> Prop :=
| vec1_here x' x l : R0 x' x -> vec1 (x' :: l) (x :: l)
| vec1_later x l' l : vec1 l' l -> vec1 (x :: l') (x :: l).

Lemma vec1_wf : well_founded R0 -> well_founded vec1.
Proof.
  intros W l. induction l as [|x l IH]; [constructor; intros y H; inversion H|].
  revert l IH. induction x as [x IHx] using (well_founded_ind W). intros l Hl.
  induction Hl as [l Hl IHl]. constructor. intros y Hy. inversion Hy as [x' ? ? Hx|? l' ? Hv]; subst.
  - apply IHx; [exact Hx|]. constructor. exact Hl.
  - apply IHl, Hv.
Qed.

Lemma vec1_lset l n x y : nth_error l n = Some x -> R0 y x -> vec1 (lset l n y) l.
Proof.
  revert n; induction l as [|z l IH]; intros [|n] H HR; cbn in *; try discriminate.
  - injection H as ->. constructor; exact HR.
  - constructor. auto.
Qed.
End Vec.

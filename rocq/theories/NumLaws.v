(** NumLaws.v - the order laws of [double] used by the structural theorems,
    proved for IEEE binary64 (F64) and for exact extended reals (XR). *)
From Coq Require Import Reals Lra ZArith Bool.
From Flocq Require Import Core IEEE754.BinarySingleNaN.
From Verif Require Import Base Num NumXR NumF64.
Open Scope Z_scope.

Record NumLaws (N : Num) : Prop := {
  nl_irrefl : forall x : N, nltb x x = false;
  nl_trans : forall x y z : N, nltb x y = true -> nltb y z = true -> nltb x z = true;
  nl_cotrans : forall x y z : N, nisnan y = false -> nltb x z = true ->
                 nltb x y = true \/ nltb y z = true;
  nl_nan_l : forall x y : N, nisnan x = true -> nltb x y = false;
  nl_nan_r : forall x y : N, nisnan x = true -> nltb y x = false;
  nl_inf_top : forall x : N, nltb ninf x = false;
  nl_isinf_inf : nisinf (ninf : N) = true;
  nl_isnan_inf : nisnan (ninf : N) = false;
  nl_isinf_0 : nisinf (n0 : N) = false;
  nl_isnan_0 : nisnan (n0 : N) = false;
  nl_0_inf : nltb (n0 : N) ninf = true;
  nl_0_1 : nltb (n0 : N) n1 = true;
  nl_1_free : nltb (n1 : N) comp_margin = false;
  nl_0_occ : nltb (n0 : N) comp_margin = true;
  nl_isnan_margin : nisnan (comp_margin : N) = false;
  nl_better_lt : forall x y : N, isTimeBetterThan x y = true -> nltb x y = true;
  nl_leb : forall x y : N, nisnan x = false -> nisnan y = false -> nleb x y = negb (nltb y x);
  nl_leb_nan_l : forall x y : N, nisnan x = true -> nleb x y = false;
  nl_leb_nan_r : forall x y : N, nisnan x = true -> nleb y x = false;
  nl_lt_fin : forall x y : N, nltb x y = true -> nisinf x = true -> nltb x n0 = true
}.

(** *** extended reals *)
Lemma Rltb_true x y : Rltb x y = true <-> (x < y)%R.
Proof. unfold Rltb; destruct (Rlt_dec x y); split; intros; try discriminate; auto; contradiction. Qed.
Lemma Rltb_false x y : Rltb x y = false <-> (y <= x)%R.
Proof. unfold Rltb; destruct (Rlt_dec x y); split; intros; try discriminate; auto; lra. Qed.
Lemma Rleb_true x y : Rleb x y = true <-> (x <= y)%R.
Proof. unfold Rleb; destruct (Rle_dec x y); split; intros; try discriminate; auto; contradiction. Qed.
Lemma Rleb_false x y : Rleb x y = false <-> (y < x)%R.
Proof. unfold Rleb; destruct (Rle_dec x y); split; intros; try discriminate; auto; lra. Qed.
Lemma Reqb_true x y : Reqb x y = true <-> (x = y)%R.
Proof. unfold Reqb; destruct (Req_EM_T x y); split; intros; try discriminate; auto; contradiction. Qed.
Lemma Reqb_false x y : Reqb x y = false <-> (x <> y)%R.
Proof. unfold Reqb; destruct (Req_EM_T x y); split; intros; try discriminate; auto; contradiction. Qed.

(** the value of COMP_MARGIN *)
Definition Rmargin : R := (100000 / 4503599627370496)%R.

Lemma Rmargin_pos : (0 < Rmargin)%R.
Proof. unfold Rmargin; lra. Qed.

Lemma xr_margin : (comp_margin : XR) = XFin Rmargin.
Proof.
  unfold comp_margin, Rmargin; cbn. unfold Reqb.
  destruct (Req_EM_T 4503599627370496 0) as [E|E]; [lra|reflexivity].
Qed.

Ltac xr_bool :=
  repeat match goal with
  | H : Rltb _ _ = true |- _ => apply Rltb_true in H
  | H : Rltb _ _ = false |- _ => apply Rltb_false in H
  | H : Rleb _ _ = true |- _ => apply Rleb_true in H
  | H : Rleb _ _ = false |- _ => apply Rleb_false in H
  | |- Rltb _ _ = true => apply Rltb_true
  | |- Rltb _ _ = false => apply Rltb_false
  | |- Rleb _ _ = true => apply Rleb_true
  | |- Rleb _ _ = false => apply Rleb_false
  end.

Lemma xltb_irrefl x : xltb x x = false.
Proof. destruct x; cbn; auto. apply Rltb_false; lra. Qed.
Lemma xltb_trans x y z : xltb x y = true -> xltb y z = true -> xltb x z = true.
Proof. destruct x, y, z; cbn; intros; try discriminate; auto; xr_bool; lra. Qed.
Lemma xltb_cotrans x y z : y <> XNaN -> xltb x z = true -> xltb x y = true \/ xltb y z = true.
Proof.
  destruct x as [x| | |], y as [y| | |], z as [z| | |]; cbn; intros Hn; try congruence; auto.
  intros H; xr_bool. destruct (Rlt_dec x y); [left|right]; xr_bool; lra.
Qed.
Lemma xleb_xltb x y : x <> XNaN -> y <> XNaN -> xleb x y = negb (xltb y x).
Proof.
  destruct x as [x| | |], y as [y| | |]; cbn; intros; try congruence; auto.
  destruct (Rltb y x) eqn:E; cbn; xr_bool; lra.
Qed.

Lemma xr_isnan (x : XR) : nisnan x = false -> x <> XNaN.
Proof. destruct x; cbn; congruence. Qed.

Lemma XR_laws : NumLaws XR.
Proof.
  split.
  - exact xltb_irrefl.
  - exact xltb_trans.
  - intros x y z H; apply xltb_cotrans, xr_isnan, H.
  - intros x y; destruct x; cbn; congruence.
  - intros x y; destruct x, y; cbn; congruence.
  - intros x; destruct x; reflexivity.
  - reflexivity.
  - reflexivity.
  - reflexivity.
  - reflexivity.
  - reflexivity.
  - cbn; xr_bool; lra.
  - rewrite xr_margin; cbn. pose proof Rmargin_pos. unfold Rmargin in *. xr_bool; lra.
  - rewrite xr_margin; cbn. pose proof Rmargin_pos. xr_bool; lra.
  - rewrite xr_margin; reflexivity.
  - intros x y; unfold isTimeBetterThan; rewrite xr_margin; pose proof Rmargin_pos.
    destruct x, y; cbn; try congruence. intros; xr_bool; lra.
  - intros x y H1 H2; apply xleb_xltb; apply xr_isnan; assumption.
  - intros x y; destruct x; cbn; congruence.
  - intros x y; destruct x, y; cbn; congruence.
  - intros x y; destruct x, y; cbn; intros; try discriminate; auto.
Qed.

(** *** binary64: the order is the order of the exact values *)
Definition toX (x : f64) : xr :=
  match x with
  | B754_zero _ => XFin 0
  | B754_infinity false => XPInf
  | B754_infinity true => XNInf
  | B754_nan => XNaN
  | B754_finite _ _ _ _ => XFin (B2R x)
  end.

Lemma toX_finite (x : f64) : is_finite x = true -> toX x = XFin (B2R x).
Proof. destruct x; cbn; congruence. Qed.

Lemma Rlt_bool_Rltb x y : Rlt_bool x y = Rltb x y.
Proof. unfold Rltb; destruct (Rlt_bool_spec x y), (Rlt_dec x y); auto; lra. Qed.
Lemma Rle_bool_Rleb x y : Rle_bool x y = Rleb x y.
Proof. unfold Rleb; destruct (Rle_bool_spec x y), (Rle_dec x y); auto; lra. Qed.

Lemma Bltb_toX (x y : f64) : Bltb x y = xltb (toX x) (toX y).
Proof.
  destruct (is_finite x) eqn:Fx, (is_finite y) eqn:Fy.
  - rewrite Bltb_correct, !toX_finite by assumption. apply Rlt_bool_Rltb.
  - rewrite (toX_finite x Fx). destruct y as [|[]| |]; try discriminate Fy;
      destruct x; try discriminate Fx; try destruct s; try destruct s0; reflexivity.
  - rewrite (toX_finite y Fy). destruct x as [|[]| |]; try discriminate Fx;
      destruct y; try discriminate Fy; try destruct s; try destruct s0; reflexivity.
  - destruct x as [|[]| |], y as [|[]| |]; try discriminate; reflexivity.
Qed.

Lemma Bleb_toX (x y : f64) : Bleb x y = xleb (toX x) (toX y).
Proof.
  destruct (is_finite x) eqn:Fx, (is_finite y) eqn:Fy.
  - rewrite Bleb_correct, !toX_finite by assumption. apply Rle_bool_Rleb.
  - rewrite (toX_finite x Fx). destruct y as [|[]| |]; try discriminate Fy;
      destruct x; try discriminate Fx; try destruct s; try destruct s0; reflexivity.
  - rewrite (toX_finite y Fy). destruct x as [|[]| |]; try discriminate Fx;
      destruct y; try discriminate Fy; try destruct s; try destruct s0; reflexivity.
  - destruct x as [|[]| |], y as [|[]| |]; try discriminate; reflexivity.
Qed.

Lemma toX_nan (x : f64) : f64_isnan x = false -> toX x <> XNaN.
Proof. destruct x as [|[]| |]; cbn; congruence. Qed.

Lemma toX_nan' (x : f64) : f64_isnan x = true -> toX x = XNaN.
Proof. destruct x as [|[]| |]; cbn; congruence. Qed.

Definition f64_margin : f64 := comp_margin (N := F64).

Lemma f64_margin_finite : is_finite f64_margin = true.
Proof. vm_compute; reflexivity. Qed.

Lemma f64_margin_sign : Bsign f64_margin = false.
Proof. vm_compute; reflexivity. Qed.

Lemma f64_margin_nonneg : (0 <= B2R f64_margin)%R.
Proof.
  pose proof f64_margin_finite. pose proof f64_margin_sign.
  destruct f64_margin as [| | |s m e]; try discriminate; cbn in *; [lra|].
  subst s. apply F2R_ge_0; cbn; lia.
Qed.

(** rounding x + margin cannot fall below x *)
Lemma f64_plus_margin_ge (x : f64) :
  is_finite x = true -> Bltb (Bplus mode_NE x f64_margin) x = false.
Proof.
  intros Fx. rewrite Bltb_toX.
  generalize (Bplus_correct prec64 emax64 Hprec64 Hmax64 mode_NE x f64_margin Fx f64_margin_finite).
  destruct (Rlt_bool_spec (Rabs (round radix2 (SpecFloat.fexp prec64 emax64) (round_mode mode_NE)
     (B2R x + B2R f64_margin))) (bpow radix2 emax64)) as [Hlt|Hge].
  - intros [HB [HF _]]. rewrite (toX_finite x Fx), (toX_finite _ HF). cbn. apply Rltb_false.
    eapply Rle_trans; [|right; symmetry; exact HB].
    rewrite <- (round_generic radix2 (SpecFloat.fexp prec64 emax64) (round_mode mode_NE) (B2R x)) at 1
      by apply generic_format_B2R.
    apply round_le; [|apply valid_rnd_round_mode|].
    { apply fexp_correct, Hprec64. }
    pose proof f64_margin_nonneg; lra.
  - intros [HB Hs]. rewrite f64_margin_sign in Hs. rewrite Hs in HB.
    destruct (Bplus mode_NE x f64_margin) as [|[]| |]; try discriminate HB.
    destruct (toX x); reflexivity.
Qed.

Lemma F64_better_lt (x y : F64) : isTimeBetterThan x y = true -> nltb x y = true.
Proof.
  unfold isTimeBetterThan. change (nadd x comp_margin) with (Bplus mode_NE x f64_margin : f64).
  change (Bltb (Bplus mode_NE x f64_margin) y = true -> Bltb x y = true).
  intros H. destruct (is_finite x) eqn:Fx.
  - pose proof (f64_plus_margin_ge x Fx) as Hge. rewrite Bltb_toX in *.
    destruct (xltb_cotrans _ (toX x) _ ltac:(rewrite (toX_finite x Fx); discriminate) H) as [H1|H1]; congruence.
  - destruct x as [|[]| |]; try discriminate Fx.
    + pose proof f64_margin_finite. destruct f64_margin; try discriminate; exact H.
    + pose proof f64_margin_finite. destruct f64_margin; try discriminate;
        cbn in H; destruct y as [|[]| |]; discriminate H.
    + destruct y as [|[]| |]; discriminate H.
Qed.

Lemma F64_laws : NumLaws F64.
Proof.
  split.
  - intros x; change (Bltb x x = false); rewrite Bltb_toX; apply xltb_irrefl.
  - intros x y z; change (Bltb x y = true -> Bltb y z = true -> Bltb x z = true);
      rewrite !Bltb_toX; apply xltb_trans.
  - intros x y z H; change (Bltb x z = true -> Bltb x y = true \/ Bltb y z = true);
      rewrite !Bltb_toX; apply xltb_cotrans, toX_nan, H.
  - intros x y H; change (Bltb x y = false); rewrite Bltb_toX, (toX_nan' x H); reflexivity.
  - intros x y H; change (Bltb y x = false); rewrite Bltb_toX, (toX_nan' x H).
    destruct (toX y); reflexivity.
  - intros x; change (Bltb (B754_infinity false) x = false); rewrite Bltb_toX.
    destruct (toX x); reflexivity.
  - reflexivity.
  - reflexivity.
  - vm_compute; reflexivity.
  - vm_compute; reflexivity.
  - vm_compute; reflexivity.
  - vm_compute; reflexivity.
  - vm_compute; reflexivity.
  - vm_compute; reflexivity.
  - vm_compute; reflexivity.
  - exact F64_better_lt.
  - intros x y H1 H2; change (Bleb x y = negb (Bltb y x)); rewrite Bltb_toX, Bleb_toX.
    apply xleb_xltb; apply toX_nan; assumption.
  - intros x y H; change (Bleb x y = false); rewrite Bleb_toX, (toX_nan' x H); reflexivity.
  - intros x y H; change (Bleb y x = false); rewrite Bleb_toX, (toX_nan' x H).
    destruct (toX y); reflexivity.
  - intros x y H1 H2. change (Bltb x y = true) in H1. change (f64_isinf x = true) in H2.
    destruct x as [|[]| |]; try discriminate H2; [reflexivity|].
    rewrite Bltb_toX in H1. destruct (toX y); discriminate H1.
Qed.

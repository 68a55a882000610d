(** FloatErr.v - rounding error of the closed form of eikonalsolver.hpp:80-105
    in binary64. *)
From Coq Require Import Reals Lra Psatz List ZArith Lia.
From Flocq Require Import Core IEEE754.BinarySingleNaN.
From Verif Require Import Base Num NumXR NumF64 NumLaws Eikonal Spec EikR FloatOps FloatEik.
Import ListNotations.
Open Scope R_scope.

Lemma rnd_step y x e : Rabs (y - x) <= e -> Rabs (rnd y - x) <= e + uu * (Rabs x + e) + eta.
Proof.
  intros H. pose proof (rnd_err y) as E. pose proof uu_pos.
  assert (Rabs y <= Rabs x + e).
  { replace y with (x + (y - x)) by ring. eapply Rle_trans; [apply Rabs_triang|]. lra. }
  assert (uu * Rabs y <= uu * (Rabs x + e)) by (apply Rmult_le_compat_l; lra).
  replace (rnd y - x) with ((rnd y - y) + (y - x)) by ring.
  eapply Rle_trans; [apply Rabs_triang|]. lra.
Qed.

Lemma rnd_step_rel y x e : Rabs (y - x) <= e -> bpow radix2 (-1000) <= Rabs y -> Rabs (rnd y - x) <= e + uu * (Rabs x + e).
Proof.
  intros H Hy. pose proof (rnd_rel y Hy) as E. pose proof uu_pos.
  assert (Rabs y <= Rabs x + e).
  { replace y with (x + (y - x)) by ring. eapply Rle_trans; [apply Rabs_triang|]. lra. }
  assert (uu * Rabs y <= uu * (Rabs x + e)) by (apply Rmult_le_compat_l; lra).
  replace (rnd y - x) with ((rnd y - y) + (y - x)) by ring.
  eapply Rle_trans; [apply Rabs_triang|]. lra.
Qed.

Lemma Rabs_add a b c d : Rabs a <= c -> Rabs b <= d -> Rabs (a + b) <= c + d.
Proof. intros. eapply Rle_trans; [apply Rabs_triang|]. lra. Qed.

Lemma quot_err a b c e : 0 < b -> Rabs (a - c * b) <= e * b -> Rabs (a / b - c) <= e.
Proof.
  intros Hb H. replace (a / b - c) with ((a - c * b) / b) by (field; lra).
  unfold Rdiv. rewrite Rabs_mult, Rabs_inv, (Rabs_pos_eq b) by lra.
  apply Rmult_le_reg_r with b; [exact Hb|]. rewrite Rmult_assoc, Rinv_l, Rmult_1_r by lra. exact H.
Qed.

(** the range spacings and velocities are required to lie in *)
Definition lo : R := bpow radix2 (-200).
Definition hi : R := bpow radix2 200.
Definition tmax : R := bpow radix2 450.

Lemma lo_pos : 0 < lo. Proof. apply bpow_gt_0. Qed.

Lemma in_range a : lo <= a <= hi -> 0 < a /\ bpow radix2 (-400) <= a * a <= bpow radix2 400.
Proof.
  intros [A B]. pose proof lo_pos. split; [lra|].
  change (-400)%Z with (-200 + -200)%Z. change 400%Z with (200 + 200)%Z. rewrite !bpow_plus. fold lo hi.
  split; apply Rmult_le_compat; lra.
Qed.

Lemma ratio_range a b : bpow radix2 (-400) <= a <= bpow radix2 400 -> bpow radix2 (-400) <= b <= bpow radix2 400 ->
  bpow radix2 (-800) <= a / b <= bpow radix2 800.
Proof.
  intros [A B] [C D]. pose proof (bpow_gt_0 radix2 (-400)) as P0.
  assert (Hb : 0 < b) by lra.
  assert (E1 : bpow radix2 (-800) * bpow radix2 400 = bpow radix2 (-400)) by (rewrite <- bpow_plus; reflexivity).
  assert (E2 : bpow radix2 800 * bpow radix2 (-400) = bpow radix2 400) by (rewrite <- bpow_plus; reflexivity).
  pose proof (bpow_gt_0 radix2 (-800)). pose proof (bpow_gt_0 radix2 800). split.
  - apply Rmult_le_reg_r with b; [exact Hb|]. unfold Rdiv. rewrite Rmult_assoc, Rinv_l, Rmult_1_r by lra.
    apply Rle_trans with (bpow radix2 (-800) * bpow radix2 400); [|lra]. apply Rmult_le_compat_l; lra.
  - apply Rmult_le_reg_r with b; [exact Hb|]. unfold Rdiv. rewrite Rmult_assoc, Rinv_l, Rmult_1_r by lra.
    apply Rle_trans with (bpow radix2 800 * bpow radix2 (-400)); [lra|]. apply Rmult_le_compat_l; lra.
Qed.

Section ND.
Variables (h v : f64) (H V : R).
Hypothesis Fh : Fin h H.
Hypothesis Fv : Fin v V.
Hypothesis Rh : lo <= H <= hi.
Hypothesis Rv : lo <= V <= hi.
Notation f := (H / V).

Lemma f_range : bpow radix2 (-400) <= f <= bpow radix2 400 /\ 0 < f.
Proof.
  pose proof lo_pos as L. 
  assert (E1 : bpow radix2 (-400) * hi = lo) by (unfold hi, lo; rewrite <- bpow_plus; reflexivity).
  assert (E2 : bpow radix2 400 * lo = hi) by (unfold hi, lo; rewrite <- bpow_plus; reflexivity).
  pose proof (bpow_gt_0 radix2 (-400)) as A. pose proof (bpow_gt_0 radix2 400) as B.
  assert (Hf : 0 < f) by (apply Rdiv_lt_0_compat; lra). split; [|exact Hf]. split.
  - apply Rmult_le_reg_r with V; [lra|]. unfold Rdiv. rewrite Rmult_assoc, Rinv_l, Rmult_1_r by lra.
    apply Rle_trans with (bpow radix2 (-400) * hi); [|lra]. apply Rmult_le_compat_l; lra.
  - apply Rmult_le_reg_r with V; [lra|]. unfold Rdiv. rewrite Rmult_assoc, Rinv_l, Rmult_1_r by lra.
    apply Rle_trans with (bpow radix2 400 * lo); [lra|]. apply Rmult_le_compat_l; lra.
Qed.

Lemma f_sq_range : bpow radix2 (-800) <= f * f <= bpow radix2 800.
Proof.
  destruct f_range as [[A B] _]. pose proof (bpow_gt_0 radix2 (-400)).
  change (-800)%Z with (-400 + -400)%Z. change 800%Z with (400 + 400)%Z. rewrite !bpow_plus. split; apply Rmult_le_compat; lra.
Qed.

Lemma eta_small : eta <= uu * (f * f) /\ eta <= uu * f.
Proof.
  unfold eta, uu. destruct f_sq_range as [A _]. destruct f_range as [[B _] _].
  assert (C : bpow radix2 (-1074) <= bpow radix2 (-52) * bpow radix2 (-800)) by (rewrite <- bpow_plus; apply bpow_le; lia).
  assert (D : bpow radix2 (-800) <= bpow radix2 (-400)) by (apply bpow_le; lia).
  pose proof (bpow_gt_0 radix2 (-52)) as P0.
  assert (bpow radix2 (-52) * bpow radix2 (-800) <= bpow radix2 (-52) * (f * f)) by (apply Rmult_le_compat_l; lra).
  assert (bpow radix2 (-52) * bpow radix2 (-800) <= bpow radix2 (-52) * f) by (apply Rmult_le_compat_l; lra).
  lra.
Qed.

Lemma bpow_big e : (e <= 1000)%Z -> bpow radix2 e <= big.
Proof. intros. apply bpow_le. exact H0. Qed.

(** h * h / (v * v) *)
Lemma Fsq : exists q, Fin (Bdiv mode_NE (Bmult mode_NE h h) (Bmult mode_NE v v)) q /\ Rabs (q - f * f) <= 4 * uu * (f * f).
Proof.
  destruct (in_range H Rh) as [H0 [H1 H2]]. destruct (in_range V Rv) as [V0 [V1 V2]].
  pose proof uu_pos as U0. assert (U1 : uu <= 1 / 1000) by (rewrite uu_val; lra).
  pose proof (bpow_big 400 ltac:(lia)) as B4.
  assert (FH : Fin (Bmult mode_NE h h) (rnd (H * H))) by (apply Fin_mult; auto; rewrite Rabs_pos_eq; nra).
  assert (FV : Fin (Bmult mode_NE v v) (rnd (V * V))) by (apply Fin_mult; auto; rewrite Rabs_pos_eq; nra).
  assert (EH : Rabs (rnd (H * H) - H * H) <= uu * (H * H)).
  { rewrite <- (Rabs_pos_eq (H * H)) at 3 by nra. apply rnd_rel. rewrite Rabs_pos_eq by nra.
    eapply Rle_trans; [|exact H1]. apply bpow_le; lia. }
  assert (EV : Rabs (rnd (V * V) - V * V) <= uu * (V * V)).
  { rewrite <- (Rabs_pos_eq (V * V)) at 3 by nra. apply rnd_rel. rewrite Rabs_pos_eq by nra.
    eapply Rle_trans; [|exact V1]. apply bpow_le; lia. }
  set (a := rnd (H * H)) in *. set (b := rnd (V * V)) in *.
  apply Rabs_le_inv in EH. apply Rabs_le_inv in EV.
  assert (Hb : 0 < b) by nra.
  assert (Eq : f * f = (H * H) / (V * V)) by (field; lra).
  pose proof (bpow_gt_0 radix2 (-400)) as P4.
  assert (Hff : 0 < f * f) by (pose proof f_sq_range as [X _]; pose proof (bpow_gt_0 radix2 (-800)); lra).
  assert (Ha : 0 < a) by nra.
  assert (Ed : Rabs (a / b - f * f) <= 25 / 10 * uu * (f * f)).
  { apply quot_err; [exact Hb|].
    assert (Hx : (f * f) * (V * V) = H * H) by (field; lra).
    assert (L1 : f * f * ((1 - uu) * (V * V)) <= f * f * b) by (apply Rmult_le_compat_l; lra).
    assert (L2 : f * f * b <= f * f * ((1 + uu) * (V * V))) by (apply Rmult_le_compat_l; lra).
    replace (f * f * ((1 - uu) * (V * V))) with ((1 - uu) * (f * f * (V * V))) in L1 by ring.
    replace (f * f * ((1 + uu) * (V * V))) with ((1 + uu) * (f * f * (V * V))) in L2 by ring.
    rewrite Hx in L1, L2.
    apply Rle_trans with (2 * uu * (H * H)).
    - apply Rabs_le. split; lra.
    - replace (25 / 10 * uu * (f * f) * b) with ((25 / 10 * uu) * (f * f * b)) by ring.
      apply Rle_trans with ((25 / 10 * uu) * ((1 - uu) * (H * H))); [|apply Rmult_le_compat_l; lra].
      assert (0 <= uu * (H * H)) by nra. nra. }
  apply Rabs_le_inv in Ed.
  assert (Sm : uu * (f * f) <= 1 / 1000 * (f * f)) by (apply Rmult_le_compat_r; lra).
  destruct f_sq_range as [R1 R2].
  exists (rnd (a / b)). split.
  - apply Fin_div; auto; [lra|]. rewrite Rabs_pos_eq by lra.
    apply Rle_trans with (bpow radix2 801); [|apply bpow_big; lia].
    change 801%Z with (800 + 1)%Z. rewrite bpow_plus. change (bpow radix2 1) with 2. lra.
  - assert (S : Rabs (rnd (a / b) - f * f) <= 25 / 10 * uu * (f * f) + uu * (Rabs (f * f) + 25 / 10 * uu * (f * f))).
    { apply rnd_step_rel; [apply Rabs_le; lra|]. rewrite Rabs_pos_eq by lra.
      apply Rle_trans with (bpow radix2 (-801)); [apply bpow_le; lia|].
      assert (bpow radix2 (-800) = 2 * bpow radix2 (-801)) by (change (-800)%Z with (1 + -801)%Z; rewrite bpow_plus; reflexivity). lra. }
    rewrite (Rabs_pos_eq (f * f)) in S by lra. eapply Rle_trans; [exact S|].
    assert (uu * (uu * (f * f)) <= 1 / 1000 * (uu * (f * f))) by (apply Rmult_le_compat_r; nra). nra.
Qed.

(** h / v *)
Lemma Fdiv : exists q, Fin (Bdiv mode_NE h v) q /\ Rabs (q - f) <= uu * f.
Proof.
  destruct f_range as [[A B] C]. destruct (in_range V Rv) as [V0 _].
  exists (rnd f). split.
  - apply Fin_div; auto; [lra|]. rewrite Rabs_pos_eq by lra. eapply Rle_trans; [exact B|apply bpow_big; lia].
  - rewrite <- (Rabs_pos_eq f) at 3 by lra. apply rnd_rel. rewrite Rabs_pos_eq by lra.
    eapply Rle_trans; [|exact A]. apply bpow_le; lia.
Qed.

Section Bounded.
Variable B : R.
Hypothesis HB : f <= B.
Hypothesis HBt : B <= tmax.

Let Bpos : 0 < B. Proof. destruct f_range as [_ C]. lra. Qed.

Lemma etaB : eta <= uu * (B * B) /\ eta <= uu * B.
Proof.
  destruct eta_small as [A C]. destruct f_range as [_ D]. pose proof uu_pos.
  assert (uu * (f * f) <= uu * (B * B)) by (apply Rmult_le_compat_l; nra).
  assert (uu * f <= uu * B) by (apply Rmult_le_compat_l; lra). lra.
Qed.

Lemma B_sq : B * B <= bpow radix2 900.
Proof. change 900%Z with (450 + 450)%Z. rewrite bpow_plus. fold tmax. apply Rmult_le_compat; lra. Qed.

Lemma sq_big c : 0 <= c <= bpow radix2 60 -> c * (B * B) <= big.
Proof.
  intros [C1 C2]. pose proof B_sq. apply Rle_trans with (bpow radix2 60 * bpow radix2 900).
  - apply Rmult_le_compat; nra.
  - rewrite <- bpow_plus. apply bpow_le. lia.
Qed.

Lemma lin_big c : 0 <= c <= bpow radix2 60 -> c * B <= big.
Proof.
  intros [C1 C2]. apply Rle_trans with (bpow radix2 60 * bpow radix2 450).
  - apply Rmult_le_compat; [lra|lra|lra|exact HBt].
  - rewrite <- bpow_plus. apply bpow_le. lia.
Qed.

Lemma num60 z : (z <= 1152921504606846976)%Z -> IZR z <= bpow radix2 60.
Proof.
  intros Hz. change 1152921504606846976%Z with (2 ^ 60)%Z in Hz.
  replace (bpow radix2 60) with (IZR (2 ^ 60)); [apply IZR_le, Hz|].
  change (2 ^ 60)%Z with (radix_val radix2 ^ 60)%Z. apply IZR_Zpower. lia.
Qed.

Notation len l := (INR (@length R l)).
Definition inB (ts : list R) : Prop := forall t, In t ts -> 0 <= t <= B.

Lemma Rsum_B ts : inB ts -> 0 <= Rsum ts <= len ts * B.
Proof.
  induction ts as [|t r IH]; intros Hb; [cbn; lra|]. change (length (t :: r)) with (S (length r)). rewrite S_INR.
  change (Rsum (t :: r)) with (t + Rsum r). specialize (IH ltac:(intros x Hx; apply Hb; right; exact Hx)).
  specialize (Hb t (or_introl eq_refl)). lra.
Qed.

Lemma Sq_B ts : inB ts -> 0 <= Sq ts <= len ts * (B * B).
Proof.
  induction ts as [|t r IH]; intros Hb; [unfold Sq; cbn; lra|]. change (length (t :: r)) with (S (length r)). rewrite S_INR.
  change (Sq (t :: r)) with (Rsqr t + Sq r). specialize (IH ltac:(intros x Hx; apply Hb; right; exact Hx)).
  specialize (Hb t (or_introl eq_refl)). unfold Rsqr. nra.
Qed.

(** sums: [j] values already added *)
Lemma Fsum l ts : Forall2 Fin l ts -> inB ts -> forall j s x, 0 <= j -> j + len ts <= 1000 ->
  Fin s x -> forall S, Rabs (x - S) <= (j * j + j) * (uu * B) -> 0 <= S <= j * B ->
  exists y, Fin (fold_left (fun s t => Bplus mode_NE s t) l s) y /\
    Rabs (y - (S + Rsum ts)) <= ((j + len ts) * (j + len ts) + (j + len ts)) * (uu * B).
Proof.
  intros HF. induction HF as [|a t l ts Fa HF IH]; intros Hb j s x Hj Hlen Fs S HS HSb.
  - exists x. split; [exact Fs|]. change (Rsum []) with 0. change (len []) with 0. replace (S + 0) with S by ring.
    replace (j + 0) with j by ring. exact HS.
  - change (length (t :: ts)) with (Datatypes.S (length ts)) in *. rewrite S_INR in *. change (Rsum (t :: ts)) with (t + Rsum ts).
    pose proof (pos_INR (length ts)) as Hl. pose proof uu_pos as U0.
    pose proof (Hb t (or_introl eq_refl)) as Ht.
    assert (U1 : uu <= 1 / 1000000000000) by (rewrite uu_val; lra).
    assert (UB : 0 < uu * B) by (apply Rmult_lt_0_compat; lra).
    assert (Sx : Rabs (x + t - (S + t)) <= (j * j + j) * (uu * B)) by (replace (x + t - (S + t)) with (x - S) by ring; exact HS).
    assert (Jb : 0 <= j * j + j <= 1001000) by nra.
    assert (Hbig : Rabs (x + t) <= big).
    { replace (x + t) with ((S + t) + (x + t - (S + t))) by ring. eapply Rle_trans; [apply Rabs_triang|].
      rewrite (Rabs_pos_eq (S + t)) by lra.
      apply Rle_trans with (3000000 * B); [|apply lin_big; split; [lra|apply num60; lia]].
      assert ((j * j + j) * (uu * B) <= 1001000 * (1 / 1000000000000 * B)) by (apply Rmult_le_compat; nra). nra. }
    specialize (IH ltac:(intros y Hy; apply Hb; right; exact Hy) (j + 1) _ _ ltac:(lra) ltac:(lra)
      (Fin_plus _ _ _ _ Fs Fa Hbig) (S + t)).
    destruct IH as [y [Fy Ey]].
    + pose proof (rnd_step _ _ _ Sx) as R1. rewrite (Rabs_pos_eq (S + t)) in R1 by lra. destruct etaB as [_ Et].
      eapply Rle_trans; [exact R1|].
      assert (uu * (S + t) <= (j + 1) * (uu * B)) by (replace ((j + 1) * (uu * B)) with (uu * ((j + 1) * B)) by ring; apply Rmult_le_compat_l; lra).
      assert (uu * ((j * j + j) * (uu * B)) <= j * (uu * B)).
      { replace (uu * ((j * j + j) * (uu * B))) with ((uu * (j * j + j)) * (uu * B)) by ring. apply Rmult_le_compat_r; [lra|].
        apply Rle_trans with (1 / 1000000000000 * (j * j + j)); [apply Rmult_le_compat_r; lra|nra]. }
      replace ((j + 1) * (j + 1) + (j + 1)) with ((j * j + j) + (j + 1) + j + 1) by ring. nra.
    + lra.
    + exists y. split; [exact Fy|]. replace (S + (t + Rsum ts)) with (S + t + Rsum ts) by ring.
      replace (j + (len ts + 1)) with (j + 1 + len ts) by ring. exact Ey.
Qed.

Lemma Fsumsq l ts : Forall2 Fin l ts -> inB ts -> forall j s x, 0 <= j -> j + len ts <= 1000 ->
  Fin s x -> forall S, Rabs (x - S) <= (j * j + 4 * j) * (uu * (B * B)) -> 0 <= S <= j * (B * B) ->
  exists y, Fin (fold_left (fun s t => Bplus mode_NE s (Bmult mode_NE t t)) l s) y /\
    Rabs (y - (S + Sq ts)) <= ((j + len ts) * (j + len ts) + 4 * (j + len ts)) * (uu * (B * B)).
Proof.
  intros HF. induction HF as [|a t l ts Fa HF IH]; intros Hb j s x Hj Hlen Fs S HS HSb.
  - exists x. split; [exact Fs|]. unfold Sq. cbn [map]. change (Rsum []) with 0. change (len []) with 0. replace (S + 0) with S by ring.
    replace (j + 0) with j by ring. exact HS.
  - change (length (t :: ts)) with (Datatypes.S (length ts)) in *. rewrite S_INR in *. change (Sq (t :: ts)) with (Rsqr t + Sq ts).
    pose proof (pos_INR (length ts)) as Hl. pose proof uu_pos as U0.
    pose proof (Hb t (or_introl eq_refl)) as Ht.
    assert (U1 : uu <= 1 / 1000000000000) by (rewrite uu_val; lra).
    assert (BB : 0 < B * B) by nra.
    set (E := uu * (B * B)) in *. assert (UB : 0 < E) by (apply Rmult_lt_0_compat; lra).
    assert (Htt : 0 <= t * t <= B * B) by nra.
    destruct etaB as [Et _]. fold E in Et.
    assert (Ftt : Fin (Bmult mode_NE a a) (rnd (t * t))).
    { apply Fin_mult; auto. rewrite Rabs_pos_eq by lra. apply Rle_trans with (1 * (B * B)); [lra|].
      apply sq_big. split; [lra|apply num60; lia]. }
    assert (Ett : Rabs (rnd (t * t) - t * t) <= 2 * E).
    { eapply Rle_trans; [apply rnd_err|]. rewrite Rabs_pos_eq by lra.
      assert (uu * (t * t) <= E) by (apply Rmult_le_compat_l; lra). lra. }
    set (q := rnd (t * t)) in *.
    assert (Sx : Rabs (x + q - (S + t * t)) <= (j * j + 4 * j + 2) * E).
    { replace (x + q - (S + t * t)) with ((x - S) + (q - t * t)) by ring.
      replace ((j * j + 4 * j + 2) * E) with ((j * j + 4 * j) * E + 2 * E) by ring. apply Rabs_add; assumption. }
    assert (Jb : 0 <= j * j + 4 * j + 2 <= 1004002) by nra.
    assert (Small : (j * j + 4 * j + 2) * E <= 1 / 10 * (B * B)).
    { unfold E. rewrite <- Rmult_assoc. apply Rmult_le_compat_r; [lra|].
      apply Rle_trans with (1004002 * (1 / 1000000000000)); [apply Rmult_le_compat; lra|lra]. }
    assert (Hbig : Rabs (x + q) <= big).
    { replace (x + q) with ((S + t * t) + (x + q - (S + t * t))) by ring. eapply Rle_trans; [apply Rabs_triang|].
      rewrite (Rabs_pos_eq (S + t * t)) by lra.
      apply Rle_trans with (3000000 * (B * B)); [nra|apply sq_big; split; [lra|apply num60; lia]]. }
    specialize (IH ltac:(intros y Hy; apply Hb; right; exact Hy) (j + 1) _ _ ltac:(lra) ltac:(lra)
      (Fin_plus _ _ _ _ Fs Ftt Hbig) (S + t * t)).
    destruct IH as [y [Fy Ey]].
    + pose proof (rnd_step _ _ _ Sx) as R1. rewrite (Rabs_pos_eq (S + t * t)) in R1 by lra.
      eapply Rle_trans; [exact R1|].
      assert (uu * (S + t * t) <= (j + 1) * E) by (unfold E; replace ((j + 1) * (uu * (B * B))) with (uu * ((j + 1) * (B * B))) by ring; apply Rmult_le_compat_l; lra).
      assert (uu * ((j * j + 4 * j + 2) * E) <= (j + 1) * E).
      { rewrite <- Rmult_assoc. apply Rmult_le_compat_r; [lra|].
        apply Rle_trans with (1 / 1000000000000 * (j * j + 4 * j + 2)); [apply Rmult_le_compat_r; lra|nra]. }
      replace ((j + 1) * (j + 1) + 4 * (j + 1)) with ((j * j + 4 * j + 2) + 2 * j + 3) by ring.
      assert (0 <= j * E) by (apply Rmult_le_pos; lra). nra.
    + lra.
    + exists y. split; [exact Fy|]. unfold Rsqr. replace (S + (t * t + Sq ts)) with (S + t * t + Sq ts) by ring.
      replace (j + (len ts + 1)) with (j + 1 + len ts) by ring. exact Ey.
Qed.

(** solveEikonalNDims spelled out *)
Lemma nd_unfold a b l : solveEikonalNDims (N := F64) h v (a :: b :: l) =
  let L := a :: b :: l in
  let sumT := fold_left (fun s t => Bplus mode_NE s t) L (f64_of_Z 0) in
  let sumTT := fold_left (fun s t => Bplus mode_NE s (Bmult mode_NE t t)) L (f64_of_Z 0) in
  let a := f64_of_Z (Z.of_nat (length L)) in
  let b := Bmult mode_NE (f64_of_Z (-2)) sumT in
  let c := Bminus mode_NE sumTT (Bdiv mode_NE (Bmult mode_NE h h) (Bmult mode_NE v v)) in
  let quad := Bminus mode_NE (Bmult mode_NE b b) (Bmult mode_NE (Bmult mode_NE (f64_of_Z 4) a) c) in
  if Bltb quad (f64_of_Z 0) then B754_infinity false
  else Bdiv mode_NE (Bplus mode_NE (Bopp b) (Bsqrt mode_NE quad)) (Bmult mode_NE (f64_of_Z 2) a).
Proof. reflexivity. Qed.

Lemma Fin_int_mult z1 z2 : (Z.abs z1 <= 1000000)%Z -> (Z.abs z2 <= 1000000)%Z ->
  Fin (Bmult mode_NE (f64_of_Z z1) (f64_of_Z z2)) (IZR z1 * IZR z2).
Proof.
  intros H1 H2. assert (Hm : (Z.abs (z1 * z2) <= 9007199254740992)%Z) by (rewrite Z.abs_mul; nia).
  pose proof (Fin_ofZ _ Hm) as FM. rewrite <- mult_IZR. rewrite <- (Fin_rnd _ _ FM). rewrite mult_IZR.
  apply Fin_mult; [apply Fin_ofZ; lia|apply Fin_ofZ; lia|]. rewrite <- mult_IZR, <- abs_IZR.
  apply Rle_trans with (bpow radix2 60); [apply num60; lia|apply bpow_le; lia].
Qed.

(** |x - y| <= e and |y| <= m give |x| <= m + e *)
Lemma abs_le_of x y e m : Rabs (x - y) <= e -> Rabs y <= m -> Rabs x <= m + e.
Proof. intros H1 H2. replace x with (y + (x - y)) by ring. apply Rabs_add; assumption. Qed.

Lemma Fnd l ts : Forall2 Fin l ts -> inB ts -> (2 <= length ts)%nat -> len ts <= 1000 ->
  2 * (f * f) <= disc f ts -> 256 * (len ts * len ts * len ts * len ts) * (uu * (B * B)) <= f * f ->
  exists r, Fin (solveEikonalNDims (N := F64) h v l) r /\
            Rabs (r - Rnd f ts) <= 32 * (len ts * len ts) * (uu * (B * B)) / f.
Proof.
  intros HF Hb Hlen Hmax HD Hsm.
  assert (Hll : length l = length ts) by (clear -HF; induction HF; cbn; auto).
  destruct l as [|a1 [|a2 l']]; [cbn in Hll; lia|cbn in Hll; lia|]. rewrite nd_unfold.
  set (L := a1 :: a2 :: l') in *. cbv zeta.
  destruct f_range as [_ Hf]. pose proof uu_pos as U0.
  assert (U1 : uu <= 1 / 8000000000000000) by (rewrite uu_val; lra).
  destruct etaB as [Et2 Et1].
  assert (Hk : 2 <= len ts) by (change 2 with (INR 2); apply le_INR; exact Hlen).
  assert (Fa : Fin (f64_of_Z (Z.of_nat (length L))) (len ts)).
  { rewrite Hll, INR_IZR_INZ. apply Fin_ofZ.
    assert (Z.of_nat (length ts) <= 1000)%Z by (apply le_IZR; rewrite <- INR_IZR_INZ; lra). lia. }
  assert (Fa4 : Fin (Bmult mode_NE (f64_of_Z 4) (f64_of_Z (Z.of_nat (length L)))) (4 * len ts)).
  { rewrite Hll, INR_IZR_INZ. apply Fin_int_mult; [lia|].
    assert (Z.of_nat (length ts) <= 1000)%Z by (apply le_IZR; rewrite <- INR_IZR_INZ; lra). lia. }
  assert (Fa2 : Fin (Bmult mode_NE (f64_of_Z 2) (f64_of_Z (Z.of_nat (length L)))) (2 * len ts)).
  { rewrite Hll, INR_IZR_INZ. apply Fin_int_mult; [lia|].
    assert (Z.of_nat (length ts) <= 1000)%Z by (apply le_IZR; rewrite <- INR_IZR_INZ; lra). lia. }
  assert (F0 : Fin (f64_of_Z 0) 0) by (apply Fin_ofZ; lia).
  assert (Fm2 : Fin (f64_of_Z (-2)) (-2)) by (apply Fin_ofZ; lia).
  destruct (Fsum L ts HF Hb 0 _ _ ltac:(lra) ltac:(lra) F0 0) as [x [Fx Ex]]; [rewrite Rminus_0_r, Rabs_R0; lra|lra|].
  destruct (Fsumsq L ts HF Hb 0 _ _ ltac:(lra) ltac:(lra) F0 0) as [q [Fq Eq]]; [rewrite Rminus_0_r, Rabs_R0; lra|lra|].
  rewrite !Rplus_0_l in Ex, Eq.
  destruct (Rsum_B ts Hb) as [S0 S1]. destruct (Sq_B ts Hb) as [Q0 Q1].
  destruct Fsq as [g [Fg Eg]].
  assert (Hdisc : disc f ts = (-2 * Rsum ts) * (-2 * Rsum ts) - 4 * len ts * (Sq ts - f * f)) by reflexivity.
  assert (Hne : ts <> []) by (destruct ts; [cbn in Hlen; lia|discriminate]).
  assert (HR : Rnd f ts = (2 * Rsum ts + sqrt (disc f ts)) / (2 * len ts)).
  { destruct ts as [|t1 [|t2 ts']]; [cbn in Hlen; lia|cbn in Hlen; lia|]. unfold Rnd. f_equal. f_equal. ring. }
  assert (HDu : disc f ts <= 4 * len ts * (f * f)).
  { pose proof (lin_sq f ts (Rsum ts / len ts)) as E. assert (Z : lin ts (Rsum ts / len ts) = 0) by (unfold lin; field; lra).
    rewrite Z in E. pose proof (P_nonneg ts (Rsum ts / len ts)). assert (0 <= len ts * P ts (Rsum ts / len ts)) by (apply Rmult_le_pos; lra). lra. }
  assert (Hff : 0 < f * f) by (apply Rmult_lt_0_compat; exact Hf).
  assert (HfB : f * f <= B * B) by (apply Rmult_le_compat; lra).
  clear Hlen Hll HF Hb.
  set (D := disc f ts) in *. set (S := Rsum ts) in *. set (Q := Sq ts) in *. set (k := len ts) in *.
  set (E := uu * (B * B)) in *. set (W := uu * B) in *. generalize dependent D. intros D.
  set (F := f * f) in *.
  assert (W0 : 0 < W) by (apply Rmult_lt_0_compat; lra).
  assert (E0 : 0 < E) by (apply Rmult_lt_0_compat; lra).
  assert (K2 : 4 <= k * k) by nra.
  assert (K2m : k * k <= 1000000) by nra.
  assert (K3 : 2 * (k * k) <= k * k * k) by nra.
  assert (K3m : k * k * k <= 1000000000) by nra.
  assert (K12 : 2 * k <= k * k) by nra.
  assert (K4 : 2 * (k * k * k) <= k * k * k * k) by (clear - Hk K3 K2; nra).
  assert (HFBf : F <= B * f) by (unfold F; apply Rmult_le_compat_r; lra).
  assert (UW : forall c, 0 <= c <= 1000000000000 -> uu * (c * W) <= 1 / 1000 * W).
  { intros c Hc. replace (uu * (c * W)) with ((uu * c) * W) by ring. apply Rmult_le_compat_r; [lra|].
    apply Rle_trans with (1 / 8000000000000000 * 1000000000000); [apply Rmult_le_compat; lra|lra]. }
  assert (UE : forall c, 0 <= c <= 1000000000000 -> uu * (c * E) <= 1 / 1000 * E).
  { intros c Hc. replace (uu * (c * E)) with ((uu * c) * E) by ring. apply Rmult_le_compat_r; [lra|].
    apply Rle_trans with (1 / 8000000000000000 * 1000000000000); [apply Rmult_le_compat; lra|lra]. }
  assert (WB : forall c, 0 <= c <= 1000000000000 -> c * W <= 1 / 1000 * B).
  { intros c Hc. unfold W. replace (c * (uu * B)) with ((c * uu) * B) by ring. apply Rmult_le_compat_r; [lra|].
    apply Rle_trans with (1000000000000 * (1 / 8000000000000000)); [apply Rmult_le_compat; lra|lra]. }
  assert (EB : forall c, 0 <= c <= 1000000000000 -> c * E <= 1 / 1000 * (B * B)).
  { intros c Hc. unfold E. replace (c * (uu * (B * B))) with ((c * uu) * (B * B)) by ring. apply Rmult_le_compat_r; [nra|].
    apply Rle_trans with (1000000000000 * (1 / 8000000000000000)); [apply Rmult_le_compat; lra|lra]. }
  assert (BB : 0 < B * B) by (apply Rmult_lt_0_compat; exact Bpos).
  assert (Bg : forall c, 0 <= c <= 1000000000 -> c * (B * B) <= big).
  { intros c Hc. apply sq_big. split; [lra|]. apply Rle_trans with 1000000000; [lra|apply num60; lia]. }
  assert (Lg : forall c, 0 <= c <= 1000000000 -> c * B <= big).
  { intros c Hc. apply lin_big. split; [lra|]. apply Rle_trans with 1000000000; [lra|apply num60; lia]. }
  (* b *)
  assert (E1 : Rabs (-2 * x - -2 * S) <= (2 * (k * k) + 2 * k) * W).
  { replace (-2 * x - -2 * S) with (-2 * (x - S)) by ring. rewrite Rabs_mult. rewrite (Rabs_left (-2)) by lra. lra. }
  assert (Ab : Rabs (-2 * S) <= 2 * k * B) by (rewrite Rabs_left1 by lra; lra).
  assert (Fb : Fin (Bmult mode_NE (f64_of_Z (-2)) (fold_left (fun s t => Bplus mode_NE s t) L (f64_of_Z 0))) (rnd (-2 * x))).
  { apply Fin_mult; [exact Fm2|exact Fx|]. eapply Rle_trans; [eapply abs_le_of; eassumption|].
    pose proof (WB (2 * (k * k) + 2 * k) ltac:(lra)). pose proof (Lg (2 * k + 1) ltac:(lra)). nra. }
  apply rnd_step in E1.
  assert (Eb : Rabs (rnd (-2 * x) - -2 * S) <= (2 * (k * k) + 4 * k + 2) * W).
  { eapply Rle_trans; [exact E1|]. pose proof (UW (2 * (k * k) + 2 * k) ltac:(lra)).
    assert (uu * Rabs (-2 * S) <= 2 * k * W) by (unfold W; replace (2 * k * (uu * B)) with (uu * (2 * k * B)) by ring; apply Rmult_le_compat_l; lra).
    lra. }
  clear E1 Fx Ex Fm2. set (b := rnd (-2 * x)) in *.
  set (bf := Bmult mode_NE (f64_of_Z (-2)) (fold_left (fun s t => Bplus mode_NE s t) L (f64_of_Z 0))) in *.
  (* c *)
  assert (E2 : Rabs (q - g - (Q - F)) <= (k * k + 4 * k + 4) * E).
  { replace (q - g - (Q - F)) with ((q - Q) + (- (g - F))) by ring.
    replace ((k * k + 4 * k + 4) * E) with ((k * k + 4 * k) * E + 4 * E) by ring. apply Rabs_add; [exact Eq|].
    rewrite Rabs_Ropp. eapply Rle_trans; [exact Eg|]. unfold E. assert (uu * F <= uu * (B * B)) by (apply Rmult_le_compat_l; lra). lra. }
  assert (Ac : Rabs (Q - F) <= k * (B * B)) by (apply Rabs_le; nra).
  assert (Fc : Fin (Bminus mode_NE (fold_left (fun s t => Bplus mode_NE s (Bmult mode_NE t t)) L (f64_of_Z 0))
     (Bdiv mode_NE (Bmult mode_NE h h) (Bmult mode_NE v v))) (rnd (q - g))).
  { apply Fin_minus; [exact Fq|exact Fg|]. eapply Rle_trans; [eapply abs_le_of; eassumption|].
    pose proof (EB (k * k + 4 * k + 4) ltac:(lra)). pose proof (Bg (k + 1) ltac:(lra)). nra. }
  apply rnd_step in E2.
  assert (Ec : Rabs (rnd (q - g) - (Q - F)) <= (k * k + 5 * k + 6) * E).
  { eapply Rle_trans; [exact E2|]. pose proof (UE (k * k + 4 * k + 4) ltac:(lra)).
    assert (uu * Rabs (Q - F) <= k * E) by (unfold E; replace (k * (uu * (B * B))) with (uu * (k * (B * B))) by ring; apply Rmult_le_compat_l; lra).
    lra. }
  clear E2 Fq Eq Fg Eg. set (c := rnd (q - g)) in *.
  set (cf := Bminus mode_NE (fold_left (fun s t => Bplus mode_NE s (Bmult mode_NE t t)) L (f64_of_Z 0))
     (Bdiv mode_NE (Bmult mode_NE h h) (Bmult mode_NE v v))) in *.
  (* b * b *)
  assert (E3 : Rabs (b * b - -2 * S * (-2 * S)) <= (2 * (k * k) + 4 * k + 2) * (4 * k + 1) * E).
  { replace (b * b - -2 * S * (-2 * S)) with ((b - -2 * S) * (2 * (-2 * S) + (b - -2 * S))) by ring. rewrite Rabs_mult.
    apply Rle_trans with ((2 * (k * k) + 4 * k + 2) * W * ((4 * k + 1) * B)).
    - apply Rmult_le_compat; try apply Rabs_pos; [exact Eb|].
      apply Rle_trans with (4 * k * B + (2 * (k * k) + 4 * k + 2) * W).
      + apply Rabs_add; [|exact Eb]. rewrite Rabs_mult, (Rabs_pos_eq 2) by lra. lra.
      + pose proof (WB (2 * (k * k) + 4 * k + 2) ltac:(lra)). lra.
    - right. unfold W, E. ring. }
  assert (Abb : Rabs (-2 * S * (-2 * S)) <= 4 * (k * k) * (B * B)).
  { rewrite Rabs_mult. apply Rle_trans with ((2 * k * B) * (2 * k * B)); [|right; ring].
    apply Rmult_le_compat; try apply Rabs_pos; exact Ab. }
  assert (C3 : (2 * (k * k) + 4 * k + 2) * (4 * k + 1) = 8 * (k * k * k) + 18 * (k * k) + 12 * k + 2) by ring.
  rewrite C3 in E3. clear C3.
  assert (Fbb : Fin (Bmult mode_NE bf bf) (rnd (b * b))).
  { apply Fin_mult; [exact Fb|exact Fb|]. eapply Rle_trans; [eapply abs_le_of; eassumption|].
    pose proof (EB (8 * (k * k * k) + 18 * (k * k) + 12 * k + 2) ltac:(lra)). pose proof (Bg (4 * (k * k) + 1) ltac:(lra)). nra. }
  apply rnd_step in E3.
  assert (Ebb : Rabs (rnd (b * b) - -2 * S * (-2 * S)) <= (8 * (k * k * k) + 22 * (k * k) + 12 * k + 4) * E).
  { eapply Rle_trans; [exact E3|]. pose proof (UE (8 * (k * k * k) + 18 * (k * k) + 12 * k + 2) ltac:(lra)).
    assert (uu * Rabs (-2 * S * (-2 * S)) <= 4 * (k * k) * E)
      by (unfold E; replace (4 * (k * k) * (uu * (B * B))) with (uu * (4 * (k * k) * (B * B))) by ring; apply Rmult_le_compat_l; lra).
    lra. }
  clear E3. set (bb := rnd (b * b)) in *.
  (* 4 a c *)
  assert (E4 : Rabs (4 * k * c - 4 * k * (Q - F)) <= (4 * (k * k * k) + 20 * (k * k) + 24 * k) * E).
  { replace (4 * k * c - 4 * k * (Q - F)) with (4 * k * (c - (Q - F))) by ring. rewrite Rabs_mult, (Rabs_pos_eq (4 * k)) by lra.
    apply Rle_trans with (4 * k * ((k * k + 5 * k + 6) * E)); [apply Rmult_le_compat_l; lra|right; ring]. }
  assert (Aac : Rabs (4 * k * (Q - F)) <= 4 * (k * k) * (B * B)).
  { rewrite Rabs_mult, (Rabs_pos_eq (4 * k)) by lra. apply Rle_trans with (4 * k * (k * (B * B))); [apply Rmult_le_compat_l; lra|right; ring]. }
  set (af := Bmult mode_NE (f64_of_Z 4) (f64_of_Z (Z.of_nat (length L)))) in *.
  assert (Fac : Fin (Bmult mode_NE af cf) (rnd (4 * k * c))).
  { apply Fin_mult; [exact Fa4|exact Fc|]. eapply Rle_trans; [eapply abs_le_of; eassumption|].
    pose proof (EB (4 * (k * k * k) + 20 * (k * k) + 24 * k) ltac:(lra)). pose proof (Bg (4 * (k * k) + 1) ltac:(lra)). nra. }
  apply rnd_step in E4.
  assert (Eac : Rabs (rnd (4 * k * c) - 4 * k * (Q - F)) <= (4 * (k * k * k) + 24 * (k * k) + 24 * k + 2) * E).
  { eapply Rle_trans; [exact E4|]. pose proof (UE (4 * (k * k * k) + 20 * (k * k) + 24 * k) ltac:(lra)).
    assert (uu * Rabs (4 * k * (Q - F)) <= 4 * (k * k) * E)
      by (unfold E; replace (4 * (k * k) * (uu * (B * B))) with (uu * (4 * (k * k) * (B * B))) by ring; apply Rmult_le_compat_l; lra).
    lra. }
  clear E4 Fc Ec Fa4. set (ac := rnd (4 * k * c)) in *.
  (* quad *)
  intros HD HDd HR HDu.
  assert (E5 : Rabs (bb - ac - D) <= (12 * (k * k * k) + 46 * (k * k) + 36 * k + 6) * E).
  { rewrite HDd. replace (bb - ac - (-2 * S * (-2 * S) - 4 * k * (Q - F))) with ((bb - -2 * S * (-2 * S)) + - (ac - 4 * k * (Q - F))) by ring.
    apply Rle_trans with ((8 * (k * k * k) + 22 * (k * k) + 12 * k + 4) * E + (4 * (k * k * k) + 24 * (k * k) + 24 * k + 2) * E); [|right; ring].
    apply Rabs_add; [exact Ebb|]. rewrite Rabs_Ropp. exact Eac. }
  assert (AD : Rabs D <= 4 * k * (B * B)) by (rewrite Rabs_pos_eq by lra; apply Rle_trans with (4 * k * F); [exact HDu|apply Rmult_le_compat_l; lra]).
  assert (Fqd : Fin (Bminus mode_NE (Bmult mode_NE bf bf) (Bmult mode_NE af cf)) (rnd (bb - ac))).
  { apply Fin_minus; [exact Fbb|exact Fac|]. eapply Rle_trans; [eapply abs_le_of; eassumption|].
    pose proof (EB (12 * (k * k * k) + 46 * (k * k) + 36 * k + 6) ltac:(lra)). pose proof (Bg (4 * k + 1) ltac:(lra)). nra. }
  apply rnd_step in E5.
  assert (Eqd : Rabs (rnd (bb - ac) - D) <= (12 * (k * k * k) + 46 * (k * k) + 40 * k + 8) * E).
  { eapply Rle_trans; [exact E5|]. pose proof (UE (12 * (k * k * k) + 46 * (k * k) + 36 * k + 6) ltac:(lra)).
    assert (uu * Rabs D <= 4 * k * E)
      by (unfold E; replace (4 * k * (uu * (B * B))) with (uu * (4 * k * (B * B))) by ring; apply Rmult_le_compat_l; lra).
    lra. }
  clear E5 Fbb Ebb Fac Eac. set (qd := rnd (bb - ac)) in *.
  set (qf := Bminus mode_NE (Bmult mode_NE bf bf) (Bmult mode_NE af cf)) in *.
  set (eq := 12 * (k * k * k) + 46 * (k * k) + 40 * k + 8) in *.
  assert (Heq : eq <= 256 * (k * k * k * k)) by (unfold eq; lra).
  assert (Hq0 : F <= qd).
  { apply Rabs_le_inv in Eqd. assert (eq * E <= 256 * (k * k * k * k) * E) by (apply Rmult_le_compat_r; lra). lra. }
  change (exists r, Fin (if Bltb qf (f64_of_Z 0) then B754_infinity false
    else Bdiv mode_NE (Bplus mode_NE (Bopp bf) (Bsqrt mode_NE qf)) (Bmult mode_NE (f64_of_Z 2) (f64_of_Z (Z.of_nat (length L))))) r /\
    Rabs (r - Rnd f ts) <= 32 * (k * k) * E / f).
  rewrite (Fin_lt _ _ _ _ Fqd F0). assert (Hlt : Rltb qd 0 = false) by (apply Rltb_false; lra). rewrite Hlt.
  (* sqrt *)
  assert (Fs : Fin (Bsqrt mode_NE qf) (rnd (sqrt qd))) by (apply Fin_sqrt; [exact Fqd|lra]).
  assert (HsD : 14 / 10 * f <= sqrt D).
  { rewrite <- (sqrt_square (14 / 10 * f)) by lra. apply sqrt_le_1_alt. unfold F in HD. nra. }
  assert (HsDu : sqrt D <= 2 * k * B).
  { rewrite <- (sqrt_square (2 * k * B)) by (apply Rmult_le_pos; lra). apply sqrt_le_1_alt.
    apply Rle_trans with (4 * k * (B * B)); [rewrite Rabs_pos_eq in AD by lra; exact AD|]. nra. }
  set (G := E / f).
  assert (HG : G * f = E) by (unfold G, Rdiv; rewrite Rmult_assoc, Rinv_l, Rmult_1_r by (apply Rgt_not_eq; exact Hf); reflexivity).
  assert (G0 : 0 < G) by (apply Rdiv_lt_0_compat; lra).
  assert (WG : W <= G).
  { apply Rmult_le_reg_r with f; [exact Hf|]. rewrite HG. unfold W, E. rewrite Rmult_assoc. apply Rmult_le_compat_l; [lra|]. apply Rmult_le_compat_l; lra. }
  assert (E6 : Rabs (sqrt qd - sqrt D) <= eq * 10 / 14 * G).
  { pose proof (sqrt_sqrt qd ltac:(lra)) as A1. pose proof (sqrt_sqrt D ltac:(lra)) as A2. pose proof (sqrt_pos qd) as A3.
    set (s1 := sqrt qd) in *. set (s2 := sqrt D) in *.
    assert (Hp : Rabs (s1 - s2) * (s1 + s2) <= eq * E).
    { rewrite <- (Rabs_pos_eq (s1 + s2)) by lra. rewrite <- Rabs_mult. replace ((s1 - s2) * (s1 + s2)) with (qd - D) by (rewrite <- A1, <- A2; ring). exact Eqd. }
    assert (Hp2 : Rabs (s1 - s2) * (14 / 10 * f) <= eq * E).
    { eapply Rle_trans; [|exact Hp]. apply Rmult_le_compat_l; [apply Rabs_pos|lra]. }
    apply Rmult_le_reg_r with (14 / 10 * f); [lra|]. replace (eq * 10 / 14 * G * (14 / 10 * f)) with (eq * (G * f)) by (generalize f; intros; field). rewrite HG. exact Hp2. }
  assert (Heq0 : 0 <= eq <= 13000000000) by (unfold eq; lra).
  assert (HeqE : 0 <= eq * E <= F) by (split; [apply Rmult_le_pos; lra|]; assert (eq * E <= 256 * (k * k * k * k) * E) by (apply Rmult_le_compat_r; lra); lra).
  assert (Hsq0 : eq * 10 / 14 * G <= B).
  { apply Rmult_le_reg_r with f; [exact Hf|]. replace (eq * 10 / 14 * G * f) with (10 / 14 * eq * (G * f)) by (generalize f; intros; field). rewrite HG. lra. }
  assert (UG : uu * (eq * 10 / 14 * G) <= 1 / 1000 * G).
  { replace (uu * (eq * 10 / 14 * G)) with ((uu * (eq * 10 / 14)) * G) by ring. apply Rmult_le_compat_r; [lra|].
    apply Rle_trans with (1 / 8000000000000000 * 10000000000); [apply Rmult_le_compat; lra|lra]. }
  apply rnd_step in E6. rewrite (Rabs_pos_eq (sqrt D)) in E6 by lra.
  assert (Es : Rabs (rnd (sqrt qd) - sqrt D) <= (eq * 10 / 14 + 2 * k + 2) * G).
  { eapply Rle_trans; [exact E6|].
    assert (uu * sqrt D <= 2 * k * W) by (unfold W; replace (2 * k * (uu * B)) with (uu * (2 * k * B)) by ring; apply Rmult_le_compat_l; lra).
    assert (2 * k * W <= 2 * k * G) by (apply Rmult_le_compat_l; lra). lra. }
  clear E6. set (s := rnd (sqrt qd)) in *.
  (* - b + sqrt *)
  assert (E7 : Rabs (- b + s - (2 * S + sqrt D)) <= (eq * 10 / 14 + 2 * (k * k) + 6 * k + 4) * G).
  { replace (- b + s - (2 * S + sqrt D)) with (- (b - -2 * S) + (s - sqrt D)) by ring.
    apply Rle_trans with ((2 * (k * k) + 4 * k + 2) * G + (eq * 10 / 14 + 2 * k + 2) * G); [|right; field].
    apply Rabs_add; [|exact Es]. rewrite Rabs_Ropp. eapply Rle_trans; [exact Eb|]. apply Rmult_le_compat_l; lra. }
  set (e7 := eq * 10 / 14 + 2 * (k * k) + 6 * k + 4) in *.
  assert (He70 : 0 <= e7 <= 10000000000) by (unfold e7; lra).
  assert (Ue7 : uu * (e7 * G) <= 1 / 1000 * G).
  { rewrite <- Rmult_assoc. apply Rmult_le_compat_r; [lra|].
    apply Rle_trans with (1 / 8000000000000000 * 10000000000); [apply Rmult_le_compat; lra|lra]. }
  assert (He7B : e7 * G <= 2 * B).
  { assert (Hd : 2 * (k * k) + 6 * k + 4 <= 256 * (k * k * k * k)) by lra.
    assert ((2 * (k * k) + 6 * k + 4) * G <= B).
    { apply Rmult_le_reg_r with f; [exact Hf|]. rewrite Rmult_assoc, HG.
      assert ((2 * (k * k) + 6 * k + 4) * E <= 256 * (k * k * k * k) * E) by (apply Rmult_le_compat_r; lra). lra. }
    unfold e7. lra. }
  assert (An : Rabs (2 * S + sqrt D) <= 4 * k * B) by (rewrite Rabs_pos_eq by lra; lra).
  assert (Fn : Fin (Bplus mode_NE (Bopp bf) (Bsqrt mode_NE qf)) (rnd (- b + s))).
  { apply Fin_plus; [apply Fin_opp, Fb|exact Fs|]. eapply Rle_trans; [eapply abs_le_of; eassumption|].
    pose proof (Lg (4 * k + 2) ltac:(lra)). lra. }
  apply rnd_step in E7.
  assert (En : Rabs (rnd (- b + s) - (2 * S + sqrt D)) <= (e7 + 4 * k + 2) * G).
  { eapply Rle_trans; [exact E7|].
    assert (uu * Rabs (2 * S + sqrt D) <= 4 * k * W) by (unfold W; replace (4 * k * (uu * B)) with (uu * (4 * k * B)) by ring; apply Rmult_le_compat_l; lra).
    assert (4 * k * W <= 4 * k * G) by (apply Rmult_le_compat_l; lra). lra. }
  clear E7 Fs Es. set (nu := rnd (- b + s)) in *.
  (* division *)
  assert (E8 : Rabs (nu / (2 * k) - Rnd f ts) <= (e7 / (2 * k) + 2 + 1 / k) * G).
  { apply quot_err; [lra|]. rewrite HR. replace ((2 * S + sqrt D) / (2 * k) * (2 * k)) with (2 * S + sqrt D) by (field; lra).
    eapply Rle_trans; [exact En|]. right. field. lra. }
  assert (Ar : Rabs (Rnd f ts) <= 2 * B).
  { rewrite HR. rewrite Rabs_pos_eq by (apply Rmult_le_pos; [lra|apply Rlt_le, Rinv_0_lt_compat; lra]).
    apply Rmult_le_reg_r with (2 * k); [lra|]. unfold Rdiv. rewrite Rmult_assoc, Rinv_l, Rmult_1_r by lra.
    rewrite Rabs_pos_eq in An by lra. lra. }
  assert (Hk1 : 0 < 1 / k <= 1 / 2).
  { split; [apply Rdiv_lt_0_compat; lra|]. apply Rmult_le_reg_r with k; [lra|]. unfold Rdiv. rewrite Rmult_assoc, Rinv_l by lra. lra. }
  assert (He72 : 0 <= e7 / (2 * k) <= e7 / 4).
  { split; [apply Rmult_le_pos; [lra|apply Rlt_le, Rinv_0_lt_compat; lra]|].
    unfold Rdiv. apply Rmult_le_compat_l; [lra|]. apply Rinv_le_contravar; lra. }
  assert (H8B : (e7 / (2 * k) + 2 + 1 / k) * G <= 4 * B).
  { assert (e7 / (2 * k) * G <= e7 / 4 * G) by (apply Rmult_le_compat_r; lra).
    assert (G <= B). { apply Rmult_le_reg_r with f; [exact Hf|]. rewrite HG. pose proof (EB 1 ltac:(lra)). assert (256 * 1 * E <= 256 * (k * k * k * k) * E) by (apply Rmult_le_compat_r; lra). lra. }
    assert ((2 + 1 / k) * G <= 3 * G) by (apply Rmult_le_compat_r; lra). lra. }
  exists (rnd (nu / (2 * k))). split.
  - apply Fin_div; [exact Fn|exact Fa2|lra|]. eapply Rle_trans; [eapply abs_le_of; eassumption|].
    pose proof (Lg 6 ltac:(lra)). lra.
  - apply rnd_step in E8. eapply Rle_trans; [exact E8|].
    assert (A1 : uu * Rabs (Rnd f ts) <= 2 * W) by (unfold W; replace (2 * (uu * B)) with (uu * (2 * B)) by ring; apply Rmult_le_compat_l; lra).
    assert (A2 : uu * ((e7 / (2 * k) + 2 + 1 / k) * G) <= G).
    { assert (uu * (e7 / (2 * k) + 2 + 1 / k) <= 1 / 8000000000000000 * 10000000000) by (apply Rmult_le_compat; lra).
      rewrite <- Rmult_assoc. rewrite <- (Rmult_1_l G) at 2. apply Rmult_le_compat_r; lra. }
    replace (32 * (k * k) * E / f) with (32 * (k * k) * G) by (unfold G, Rdiv; ring).
    assert (A3 : e7 / (2 * k) + 2 + 1 / k + 4 <= 32 * (k * k)).
    { apply Rmult_le_reg_r with (2 * k); [lra|]. replace ((e7 / (2 * k) + 2 + 1 / k + 4) * (2 * k)) with (e7 + 12 * k + 2) by (field; lra).
      replace (32 * (k * k) * (2 * k)) with (64 * (k * k * k)) by ring. unfold e7, eq. lra. }
    assert ((e7 / (2 * k) + 2 + 1 / k + 4) * G <= 32 * (k * k) * G) by (apply Rmult_le_compat_r; lra). lra.
Qed.

Lemma F1 a t : Fin a t -> 0 <= t <= B ->
  exists r, Fin (solveEikonalNDims (N := F64) h v [a]) r /\ Rabs (r - Rnd f [t]) <= 32 * (uu * (B * B)) / f.
Proof.
  intros Fa Ht. destruct Fdiv as [d [Fd Ed]]. destruct f_range as [_ Hf]. pose proof uu_pos as U0.
  assert (U1 : uu <= 1 / 1000) by (rewrite uu_val; lra). destruct etaB as [_ Et].
  change (solveEikonalNDims (N := F64) h v [a]) with (Bplus mode_NE a (Bdiv mode_NE h v)). rewrite Rnd_singleton.
  assert (E1 : Rabs (t + d - (t + f)) <= uu * B).
  { replace (t + d - (t + f)) with (d - f) by ring. eapply Rle_trans; [exact Ed|]. apply Rmult_le_compat_l; lra. }
  assert (UB : 0 < uu * B <= 1 / 1000 * B) by (split; [apply Rmult_lt_0_compat; lra|apply Rmult_le_compat_r; lra]).
  exists (rnd (t + d)). split.
  - apply Fin_plus; auto. eapply Rle_trans; [apply (abs_le_of _ (t + f) (uu * B) (2 * B)); [exact E1|rewrite Rabs_pos_eq by lra; lra]|].
    pose proof (lin_big 3 ltac:(split; [lra|apply num60; lia])). lra.
  - apply rnd_step in E1. rewrite (Rabs_pos_eq (t + f)) in E1 by lra. eapply Rle_trans; [exact E1|].
    assert (uu * (uu * B) <= 1 / 1000 * (uu * B)) by (apply Rmult_le_compat_r; lra).
    assert (uu * (t + f) <= 2 * (uu * B)) by (replace (2 * (uu * B)) with (uu * (2 * B)) by ring; apply Rmult_le_compat_l; lra).
    apply Rle_trans with (32 * (uu * B)); [lra|].
    apply Rmult_le_reg_r with f; [exact Hf|]. replace (32 * (uu * (B * B)) / f * f) with (32 * (uu * B) * B) by (unfold Rdiv; rewrite !Rmult_assoc, Rinv_l by (apply Rgt_not_eq; exact Hf); ring).
    apply Rmult_le_compat_l; lra.
Qed.

End Bounded.
End ND.

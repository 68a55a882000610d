(** FloatEik.v - the Eikonal update computed in binary64 against the exact one. *)
From Coq Require Import Reals Lra Psatz List ZArith Lia Permutation Sorted.
From Flocq Require Import Core IEEE754.BinarySingleNaN.
From Verif Require Import Base Num NumXR NumF64 NumLaws Eikonal Spec EikR FloatOps.
Import ListNotations.
Open Scope R_scope.

(** ** the quadratic over the reals, near its root *)
Section Quad.
Variable f : R.
Hypothesis Hf : 0 < f.

Notation len l := (INR (@length R l)).
(** a x - S *)
Definition lin (l : list R) (x : R) : R := len l * x - Rsum l.

Lemma len_pos l : l <> [] -> 1 <= len l.
Proof. intros H. destruct l as [|x l]; [congruence|]. change (length (x :: l)) with (S (length l)). rewrite S_INR. pose proof (pos_INR (length l)). lra. Qed.

Lemma P_nonneg l x : 0 <= P l x.
Proof. induction l as [|y l IH]; [unfold P; cbn; lra|]. rewrite P_cons. pose proof (Rle_0_sqr (x - y)). lra. Qed.

(** (a x - S)^2 = a P(x) - (a f^2 - D/4) *)
Lemma lin_sq l x : lin l x * lin l x = len l * P l x - len l * (f * f) + disc f l / 4.
Proof. rewrite P_quad. unfold lin, disc. field. Qed.

Lemma P_shift l x e : P l (x + e) = P l x + 2 * e * lin l x + len l * (e * e).
Proof. rewrite !P_quad. unfold lin. ring. Qed.

Lemma Rnd_lin l : l <> [] -> 0 <= disc f l -> lin l (Rnd f l) = sqrt (disc f l) / 2.
Proof.
  intros Hne HD. pose proof (len_pos l Hne) as Hn. destruct l as [|t [|t2 r]]; [congruence| |].
  - unfold lin. cbn [length INR Rnd]. change (Rsum [t]) with (t + 0).
    assert (E : disc f [t] = (2 * f) * (2 * f)).
    { unfold disc, Sq. cbn [length INR map]. change (Rsum [t]) with (t + 0). change (Rsum [Rsqr t]) with (Rsqr t + 0). unfold Rsqr. ring. }
    rewrite E, sqrt_square by lra. field.
  - set (l := t :: t2 :: r) in *.
    assert (Hr : Rnd f l = (2 * Rsum l + sqrt (disc f l)) / (2 * len l)) by (unfold Rnd, l; f_equal; f_equal; ring).
    unfold lin. rewrite Hr. field. lra.
Qed.

Lemma Rnd_P l : l <> [] -> 0 <= disc f l -> P l (Rnd f l) = f * f.
Proof.
  intros Hne HD. pose proof (len_pos l Hne) as Hn. pose proof (lin_sq l (Rnd f l)) as E.
  rewrite (Rnd_lin l Hne HD) in E. pose proof (sqrt_sqrt _ HD) as Hs.
  assert (len l * (P l (Rnd f l) - f * f) = 0) by nra. apply Rmult_integral in H. lra.
Qed.

(** beyond the larger root *)
Lemma beyond_root l x : l <> [] -> 0 <= disc f l -> f * f <= P l x -> 0 <= lin l x -> Rnd f l <= x.
Proof.
  intros Hne HD HP Hl. pose proof (len_pos l Hne) as Hn. pose proof (lin_sq l x) as E.
  pose proof (Rnd_lin l Hne HD) as Er. pose proof (sqrt_sqrt _ HD) as Hs. pose proof (sqrt_pos (disc f l)) as Hs0.
  destruct (Rle_dec (Rnd f l) x) as [L|L]; [exact L|exfalso].
  assert (lin l x < lin l (Rnd f l)) by (unfold lin; nra). rewrite Er in *.
  assert (len l * (f * f) <= len l * P l x) by (apply Rmult_le_compat_l; lra). nra.
Qed.

(** the sum of non-negative numbers, squared, is at least the sum of squares *)
Lemma P_le_sq l t : (forall s, In s l -> s <= t) -> 0 <= lin l t /\ P l t <= lin l t * lin l t.
Proof.
  induction l as [|x l IH]; intros H.
  - unfold lin. cbn. split; [lra|]. unfold P; cbn. lra.
  - destruct (IH ltac:(intros; apply H; right; assumption)) as [A B].
    specialize (H x (or_introl eq_refl)).
    assert (E : lin (x :: l) t = (t - x) + lin l t).
    { unfold lin. change (length (x :: l)) with (S (length l)). rewrite S_INR. change (Rsum (x :: l)) with (x + Rsum l). ring. }
    rewrite E, P_cons. unfold Rsqr. split; [lra|]. nra.
Qed.

(** the state of the loop: [l] are the values used so far *)
Record near (l : list R) : Prop := {
  nr_ne : l <> [];
  nr_disc : 2 * (f * f) <= disc f l
}.

Lemma near_singleton t : near [t].
Proof.
  constructor; [discriminate|]. unfold disc, Sq. cbn [length INR map]. change (Rsum [t]) with (t + 0).
  change (Rsum [Rsqr t]) with (Rsqr t + 0). unfold Rsqr. nra.
Qed.

Lemma near_lin l : near l -> 7 / 10 * f <= lin l (Rnd f l).
Proof.
  intros [Hne HD]. rewrite Rnd_lin by (auto; nra).
  assert (H : 14 / 10 * f <= sqrt (disc f l)).
  { rewrite <- (sqrt_square (14 / 10 * f)) by lra. apply sqrt_le_1_alt. nra. }
  lra.
Qed.

Lemma near_P l : near l -> P l (Rnd f l) = f * f.
Proof. intros [Hne HD]. apply Rnd_P; auto. nra. Qed.

(** one more value, at most [e] beyond the current result *)
Lemma near_step l t n e :
  near l -> (forall s, In s l -> s <= t) -> t <= Rnd f l + e -> 0 <= e -> 8 * (n * n) * e <= f ->
  len l + 1 <= n ->
  near (l ++ [t]) /\ Rnd f (l ++ [t]) <= Rnd f l /\ t <= Rnd f (l ++ [t]) + 2 * n * e.
Proof.
  intros HN Hle Ht He Hsm Hn. pose proof HN as [Hne HD]. pose proof (len_pos l Hne) as Hk.
  pose proof (near_lin l HN) as Hlin. pose proof (near_P l HN) as HP.
  set (r := Rnd f l) in *. set (k := len l) in *.
  assert (Hk2 : lin l r <= k * f).
  { pose proof (lin_sq l r) as E. rewrite HP in E.
    assert (HD4 : disc f l / 4 <= k * (f * f)).
    { pose proof (Rle_0_sqr (lin l (Rsum l / k))) as Z. unfold Rsqr in Z.
      assert (El : lin l (Rsum l / k) = 0) by (unfold lin; fold k; field; lra).
      pose proof (lin_sq l (Rsum l / k)) as E2. rewrite El in E2. fold k in E2.
      assert (0 <= P l (Rsum l / k)).
      { apply P_nonneg. }
      assert (0 <= k * P l (Rsum l / k)) by (apply Rmult_le_pos; lra). lra. }
    fold k in E. assert (lin l r * lin l r <= (k * f) * (k * f)) by nra.
    assert (0 <= k * f) by (apply Rmult_le_pos; lra). nra. }
  assert (Hn2 : 2 <= n) by lra.
  assert (Hnn : 4 <= n * n) by (apply Rle_trans with (2 * 2); [lra|apply Rmult_le_compat; lra]).
  assert (He2 : 32 * e <= f) by (pose proof (Rmult_le_compat_r e 4 (n * n) He Hnn); lra).
  (* P at t *)
  assert (HPt : P l t <= f * f + 2 * n * e * f).
  { destruct (Rle_dec t r) as [L|L].
    - assert (P l t <= P l r).
      { destruct (Req_dec t r) as [->|Hd]; [lra|]. apply Rlt_le, P_lt; auto. lra. }
      assert (0 <= 2 * n * e * f) by (repeat apply Rmult_le_pos; lra). lra.
    - set (d := t - r). replace t with (r + d) by (unfold d; ring). rewrite P_shift, HP. fold k.
      assert (Hd : 0 <= d <= e) by (unfold d; lra).
      assert (d * d <= e * d) by nra.
      assert (2 * d * lin l r <= 2 * e * (k * f)) by (apply Rmult_le_compat; lra).
      assert (Hke : k * e <= f).
      { assert (n * e <= n * n * e) by (apply Rmult_le_compat_r; nra). assert (k * e <= n * e) by (apply Rmult_le_compat_r; lra). lra. }
      assert (k * (d * d) <= f * e).
      { apply Rle_trans with ((k * e) * e); [|apply Rmult_le_compat_r; lra].
        rewrite Rmult_assoc. apply Rmult_le_compat_l; [lra|]. apply Rmult_le_compat; lra. }
      assert (0 <= e * f) by (apply Rmult_le_pos; lra).
      assert (k * (e * f) <= (n - 1) * (e * f)) by (apply Rmult_le_compat_r; lra). lra. }
  assert (Hne' : l ++ [t] <> []) by (destruct l; discriminate).
  assert (Hlen : len (l ++ [t]) = k + 1) by (rewrite app_length, plus_INR; cbn; reflexivity).
  assert (HPt' : P (l ++ [t]) t = P l t) by (rewrite P_app; unfold P at 2; cbn; unfold Rsqr; ring).
  assert (Hef : 8 * (n * (e * f)) * n <= f * f).
  { replace (8 * (n * (e * f)) * n) with ((8 * (n * n) * e) * f) by ring. apply Rmult_le_compat_r; lra. }
  assert (HD' : 2 * (f * f) <= disc f (l ++ [t])).
  { destruct (P_le_sq (l ++ [t]) t) as [A B].
    { intros s Hs. apply in_app_or in Hs. destruct Hs as [Hs|[<-|[]]]; [auto|lra]. }
    pose proof (lin_sq (l ++ [t]) t) as E. rewrite HPt', Hlen in *.
    assert (k * P l t <= k * (f * f + 2 * n * e * f)) by (apply Rmult_le_compat_l; lra).
    assert (k * (2 * n * e * f) <= (n - 1) * (2 * n * e * f)).
    { apply Rmult_le_compat_r; [repeat apply Rmult_le_pos; lra|lra]. }
    assert (0 <= n * e * f) by (repeat apply Rmult_le_pos; lra). nra. }
  assert (HN' : near (l ++ [t])) by (constructor; assumption).
  split; [exact HN'|].
  assert (Hlin' : lin (l ++ [t]) r = lin l r + (r - t)).
  { unfold lin. rewrite Hlen. fold k. rewrite Rsum_app. change (Rsum [t]) with (t + 0). ring. }
  split.
  - apply beyond_root; auto; [nra| |rewrite Hlin'; lra].
    rewrite P_app, HP. pose proof (P_nonneg [t] r). lra.
  - pose proof (near_lin _ HN') as HL. pose proof (near_P _ HN') as HP2.
    set (r' := Rnd f (l ++ [t])) in *.
    destruct (Rle_dec t r') as [L|L]; [assert (0 <= 2 * n * e) by nra; lra|].
    set (d := t - r') in *. assert (Ed : t = r' + d) by (unfold d; ring).
    pose proof (P_shift (l ++ [t]) r' d) as Esh. rewrite <- Ed, HP2, Hlen, HPt' in Esh.
    assert (Hd : 0 < d) by (unfold d; lra).
    assert (0 <= (k + 1) * (d * d)) by (apply Rmult_le_pos; nra).
    assert (2 * d * (7 / 10 * f) <= 2 * d * lin (l ++ [t]) r') by (apply Rmult_le_compat_l; lra).
    assert (d * (14 / 10) * f <= 2 * n * e * f) by lra.
    assert (d * (14 / 10) <= 2 * n * e) by (apply Rmult_le_reg_r with f; lra).
    assert (0 <= n * e) by nra. lra.
Qed.

(** well above the smallest value *)
Lemma near_min l t0 : near l -> (forall s, In s l -> t0 <= s) -> len l * t0 + 7 / 10 * f <= len l * Rnd f l.
Proof.
  intros HN H. pose proof (near_lin l HN) as HL. unfold lin in HL.
  assert (len l * t0 <= Rsum l); [|lra].
  clear - H. induction l as [|x l IH]; [cbn; lra|].
  change (length (x :: l)) with (S (length l)). rewrite S_INR. change (Rsum (x :: l)) with (x + Rsum l).
  pose proof (H x (or_introl eq_refl)). specialize (IH ltac:(intros; apply H; right; assumption)). lra.
Qed.

(** the upwind sum around the root *)
Lemma US_above_root l e : near l -> 0 <= e -> (forall s, In s l -> s <= Rnd f l + e) ->
  f * f <= upwind_sum l (Rnd f l + e).
Proof.
  intros HN He H. rewrite US_eq_P by exact H. rewrite P_shift, (near_P l HN). pose proof (near_lin l HN).
  pose proof (pos_INR (length l)). assert (0 <= len l * (e * e)) by (apply Rmult_le_pos; nra). nra.
Qed.

Lemma US_le_P l x : upwind_sum l x <= P l x.
Proof.
  induction l as [|t r IH]; [cbn; lra|]. rewrite US_cons, P_cons.
  assert (Rsqr (Rmax (x - t) 0) <= Rsqr (x - t)); [|lra].
  unfold Rmax. destruct (Rle_dec (x - t) 0); unfold Rsqr; nra.
Qed.

Lemma US_below_root l x : near l -> x < Rnd f l -> upwind_sum l x < f * f.
Proof.
  intros HN Hx. pose proof HN as [Hne HD]. pose proof (len_pos l Hne) as Hk.
  pose proof (near_lin l HN) as HL. pose proof (lin_sq l (Rnd f l)) as E. rewrite (near_P l HN) in E.
  assert (Hm : exists m, lin l m = 0 /\ m < Rnd f l).
  { exists (Rsum l / len l). assert (Z : lin l (Rsum l / len l) = 0) by (unfold lin; field; lra). split; [exact Z|].
    apply Rnot_le_lt. intros C. assert (lin l (Rnd f l) <= lin l (Rsum l / len l)); [|lra]. unfold lin. nra. }
  destruct Hm as [m [Z Hm]].
  assert (Hgo : forall y, m <= y < Rnd f l -> P l y < f * f).
  { intros y Hy. pose proof (lin_sq l y) as E2.
    assert (0 <= lin l y < lin l (Rnd f l)) by (unfold lin in *; split; nra).
    assert (len l * P l y < len l * (f * f)) by nra. apply Rmult_lt_reg_l with (len l); lra. }
  destruct (Rle_dec m x) as [L|L].
  - eapply Rle_lt_trans; [apply US_le_P|]. apply Hgo. lra.
  - eapply Rle_lt_trans; [apply (US_mono l x m); lra|]. eapply Rle_lt_trans; [apply US_le_P|]. apply Hgo. lra.
Qed.
End Quad.

(** EikR.v - the Eikonal update over the reals. *)
From Coq Require Import Reals Lra List ZArith Lia Permutation Sorted.
From Verif Require Import Spec.
Import ListNotations.
Open Scope R_scope.

(** sum of squares without the maximum *)
Definition P (l : list R) (u : R) : R := Rsum (map (fun t => Rsqr (u - t)) l).
Definition Sq (l : list R) : R := Rsum (map Rsqr l).

Lemma Rsum_app a b : Rsum (a ++ b) = Rsum a + Rsum b.
Proof.
  induction a as [|x r IH]; [rewrite app_nil_l; change (Rsum []) with 0; ring|].
  change (Rsum ((x :: r) ++ b)) with (x + Rsum (r ++ b)). change (Rsum (x :: r)) with (x + Rsum r).
  rewrite IH; ring.
Qed.

Lemma P_app a b u : P (a ++ b) u = P a u + P b u.
Proof. unfold P; rewrite map_app; apply Rsum_app. Qed.

Lemma P_cons t l u : P (t :: l) u = Rsqr (u - t) + P l u.
Proof. reflexivity. Qed.

Lemma US_app a b u : upwind_sum (a ++ b) u = upwind_sum a u + upwind_sum b u.
Proof. unfold upwind_sum; rewrite map_app; apply Rsum_app. Qed.

Lemma US_cons t l u : upwind_sum (t :: l) u = Rsqr (Rmax (u - t) 0) + upwind_sum l u.
Proof. reflexivity. Qed.

Lemma US_nonneg l u : 0 <= upwind_sum l u.
Proof.
  induction l as [|t r IH]; [cbn; lra|]. rewrite US_cons.
  pose proof (Rle_0_sqr (Rmax (u - t) 0)); lra.
Qed.

Lemma Rmax_sq_mono x y : x <= y -> Rsqr (Rmax x 0) <= Rsqr (Rmax y 0).
Proof.
  intros H. apply Rsqr_incr_1; [|apply Rmax_r|apply Rmax_r].
  apply Rmax_lub; [eapply Rle_trans; [exact H|apply Rmax_l]|apply Rmax_r].
Qed.

Lemma US_mono l u w : u <= w -> upwind_sum l u <= upwind_sum l w.
Proof.
  intros H. induction l as [|t r IH]; [cbn; lra|]. rewrite !US_cons.
  pose proof (Rmax_sq_mono (u - t) (w - t) ltac:(lra)); lra.
Qed.

(** strictly increasing where positive *)
Lemma US_strict l u w : u < w -> 0 < upwind_sum l w -> upwind_sum l u < upwind_sum l w.
Proof.
  intros H. induction l as [|t r IH]; [cbn; lra|]. rewrite !US_cons. intros Hp.
  destruct (Rlt_dec t w) as [L|L].
  - pose proof (US_mono r u w ltac:(lra)).
    assert (Rsqr (Rmax (u - t) 0) < Rsqr (Rmax (w - t) 0)); [|lra].
    apply Rsqr_incrst_1; [|apply Rmax_r|apply Rmax_r].
    rewrite (Rmax_left (w - t) 0) by lra. apply Rmax_lub_lt; lra.
  - rewrite (Rmax_right (w - t) 0) in * by lra. rewrite (Rmax_right (u - t) 0) by lra.
    unfold Rsqr in *. specialize (IH ltac:(lra)). lra.
Qed.

Lemma US_zero l u : (forall t, In t l -> u <= t) -> upwind_sum l u = 0.
Proof.
  induction l as [|t r IH]; intros H; [reflexivity|]. rewrite US_cons.
  rewrite Rmax_right by (specialize (H t (or_introl eq_refl)); lra).
  rewrite IH by (intros; apply H; right; assumption). unfold Rsqr; ring.
Qed.

Lemma US_eq_P l u : (forall t, In t l -> t <= u) -> upwind_sum l u = P l u.
Proof.
  induction l as [|t r IH]; intros H; [reflexivity|]. rewrite US_cons, P_cons.
  rewrite Rmax_left by (specialize (H t (or_introl eq_refl)); lra).
  rewrite IH by (intros; apply H; right; assumption). reflexivity.
Qed.

Lemma US_perm a b u : Permutation a b -> upwind_sum a u = upwind_sum b u.
Proof. intros H; induction H; rewrite ?US_cons; lra. Qed.

Lemma P_quad l u : P l u = INR (length l) * (u * u) - 2 * Rsum l * u + Sq l.
Proof.
  induction l as [|t r IH]; [cbn; ring|].
  rewrite P_cons, IH. change (length (t :: r)) with (S (length r)). rewrite S_INR.
  change (Rsum (t :: r)) with (t + Rsum r). change (Sq (t :: r)) with (Rsqr t + Sq r).
  unfold Rsqr; ring.
Qed.

(** The closed-form root (eikonalsolver.hpp:80-105 over R) *)
Definition disc (f : R) (l : list R) : R :=
  (-2 * Rsum l) * (-2 * Rsum l) - 4 * INR (length l) * (Sq l - f * f).

Definition Rnd (f : R) (l : list R) : R :=
  match l with
  | [t] => t + f
  | _ => (- (-2 * Rsum l) + sqrt (disc f l)) / (2 * INR (length l))
  end.

Lemma Rnd_singleton f t : Rnd f [t] = t + f.
Proof. reflexivity. Qed.

Lemma Rnd_root f l x :
  0 < f -> l <> [] -> P l x < f * f ->
  0 < disc f l /\ P l (Rnd f l) = f * f /\ x < Rnd f l.
Proof.
  intros Hf Hne Hx.
  assert (Hn : 0 < INR (length l)).
  { apply lt_0_INR. destruct l; [congruence|cbn; lia]. }
  set (n := INR (length l)) in *.
  assert (Hsqd : 4 * Rsqr (n * x - Rsum l) < disc f l).
  { rewrite P_quad in Hx. fold n in Hx. unfold disc; fold n. unfold Rsqr. nra. }
  pose proof (Rle_0_sqr (n * x - Rsum l)) as H0.
  assert (HD : 0 < disc f l) by lra.
  split; [exact HD|].
  destruct l as [|t [|t2 r]]; [congruence| |].
  - cbn. unfold Rsqr. split; [ring|].
    rewrite P_quad in Hx. cbn in Hx. unfold Sq in Hx; cbn in Hx. unfold Rsqr in Hx.
    destruct (Rlt_dec x (t + f)) as [L|L]; [exact L|]. exfalso. nra.
  - set (l := t :: t2 :: r) in *.
    assert (Hr : Rnd f l = (2 * Rsum l + sqrt (disc f l)) / (2 * n)) by (unfold Rnd, l, n; f_equal; f_equal; ring).
    assert (Hs : sqrt (disc f l) * sqrt (disc f l) = disc f l) by (apply sqrt_sqrt; lra).
    pose proof (sqrt_pos (disc f l)) as Hs0.
    set (s := sqrt (disc f l)) in *.
    assert (Hm : 2 * n * Rnd f l = 2 * Rsum l + s).
    { rewrite Hr. field. lra. }
    set (u := Rnd f l) in *. split.
    + rewrite P_quad. fold n.
      assert (E : 4 * n * (n * (u * u) - 2 * Rsum l * u + Sq l) = 4 * n * (f * f)).
      { replace (4 * n * (n * (u * u) - 2 * Rsum l * u + Sq l))
          with ((2 * n * u) * (2 * n * u) - 4 * Rsum l * (2 * n * u) + 4 * n * Sq l) by ring.
        rewrite Hm. unfold disc in Hs. fold n in Hs. nra. }
      apply Rmult_eq_reg_l in E; [exact E|lra].
    + destruct (Rlt_dec x u) as [L|L]; [exact L|exfalso].
      assert (n * x - Rsum l >= s / 2) by nra.
      unfold Rsqr in Hsqd. nra.
Qed.

(** eikonalsolver.hpp:68-73 over R, margin m *)
Fixpoint Rloop (f m : R) (used rest : list R) : R :=
  match rest with
  | [] => Rnd f used
  | t :: r => if Rlt_dec (Rnd f used - t) m then Rnd f used else Rloop f m (used ++ [t]) r
  end.

(** the prefix the loop used when it stopped *)
Fixpoint Rused (f m : R) (used rest : list R) : list R * list R :=
  match rest with
  | [] => (used, [])
  | t :: r => if Rlt_dec (Rnd f used - t) m then (used, rest) else Rused f m (used ++ [t]) r
  end.

Lemma Rloop_used f m used rest : Rloop f m used rest = Rnd f (fst (Rused f m used rest)).
Proof.
  revert used; induction rest as [|t r IH]; intros used; cbn; [reflexivity|].
  destruct (Rlt_dec _ _); [reflexivity|apply IH].
Qed.

Lemma Rused_app f m used rest :
  fst (Rused f m used rest) ++ snd (Rused f m used rest) = used ++ rest.
Proof.
  revert used; induction rest as [|t r IH]; intros used; cbn; [reflexivity|].
  destruct (Rlt_dec _ _); [reflexivity|]. rewrite IH, <- app_assoc. reflexivity.
Qed.

Definition ok_used (f : R) (used : list R) : Prop :=
  used <> [] /\ P used (Rnd f used) = f * f /\ (forall s, In s used -> s < Rnd f used) /\ 0 < disc f used.

Lemma ok_singleton f t : 0 < f -> ok_used f [t].
Proof.
  intros Hf. split; [discriminate|]. split; [cbn; unfold Rsqr; ring|]. split.
  - intros s [<-|[]]. rewrite Rnd_singleton. lra.
  - unfold disc, Sq, Rsqr; cbn. unfold Rsqr. nra.
Qed.

Lemma P_lt l t u : l <> [] -> (forall s, In s l -> s <= t) -> t < u -> P l t < P l u.
Proof.
  intros Hne H Htu. destruct l as [|x r]; [congruence|].
  assert (Hr : P r t <= P r u).
  { clear Hne. assert (H' : forall s, In s r -> s <= t) by (intros; apply H; right; assumption).
    clear H. induction r as [|y r IH]; [cbn; lra|]. rewrite !P_cons.
    assert (Rsqr (t - y) <= Rsqr (u - y)).
    { specialize (H' y (or_introl eq_refl)). apply Rsqr_incr_1; lra. }
    specialize (IH ltac:(intros; apply H'; right; assumption)). lra. }
  rewrite !P_cons. specialize (H x (or_introl eq_refl)).
  assert (Rsqr (t - x) < Rsqr (u - x)) by (apply Rsqr_incrst_1; lra). lra.
Qed.

Lemma ok_step f used t :
  0 < f -> ok_used f used -> (forall s, In s used -> s <= t) -> t < Rnd f used ->
  ok_used f (used ++ [t]) /\ Rnd f (used ++ [t]) < Rnd f used /\ t < Rnd f (used ++ [t]).
Proof.
  intros Hf [Hne [HP [Hs HD]]] Hle Ht.
  assert (Hx : P (used ++ [t]) t < f * f).
  { rewrite P_app. cbn. unfold Rsqr. replace (t - t) with 0 by ring.
    pose proof (P_lt used t (Rnd f used) Hne Hle Ht). lra. }
  assert (Hne' : used ++ [t] <> []) by (destruct used; discriminate).
  destruct (Rnd_root f (used ++ [t]) t Hf Hne' Hx) as [HD' [HP' Hlt]].
  assert (Hall : forall s, In s (used ++ [t]) -> s < Rnd f (used ++ [t])).
  { intros s Hin. apply in_app_or in Hin. destruct Hin as [Hin|[<-|[]]]; [|exact Hlt].
    specialize (Hle s Hin). lra. }
  split; [split; [exact Hne'|auto]|]. split; [|exact Hlt].
  destruct (Rlt_dec (Rnd f (used ++ [t])) (Rnd f used)) as [L|L]; [exact L|exfalso].
  assert (Hge : P (used ++ [t]) (Rnd f used) <= P (used ++ [t]) (Rnd f (used ++ [t]))).
  { destruct (Req_dec (Rnd f used) (Rnd f (used ++ [t]))) as [E|E]; [rewrite E; lra|].
    apply Rlt_le, P_lt; [exact Hne'| |lra].
    intros s Hin. apply in_app_or in Hin. destruct Hin as [Hin|[<-|[]]]; [|lra].
    specialize (Hs s Hin). lra. }
  rewrite P_app, HP in Hge. rewrite HP' in Hge. cbn in Hge. unfold Rsqr in Hge. nra.
Qed.

(** sortedness of a list of reals *)
Definition Rsorted (l : list R) : Prop := StronglySorted Rle l.

Lemma Rused_ok f m used rest :
  0 < f -> 0 < m -> ok_used f used -> Rsorted (used ++ rest) ->
  ok_used f (fst (Rused f m used rest)) /\
  Rnd f (fst (Rused f m used rest)) <= Rnd f used /\
  (forall t, In t (snd (Rused f m used rest)) -> Rnd f (fst (Rused f m used rest)) - t < m).
Proof.
  intros Hf Hm. revert used; induction rest as [|t r IH]; intros used Hok Hs; cbn.
  - split; [exact Hok|]. split; [lra|intros t []].
  - destruct (Rlt_dec (Rnd f used - t) m) as [L|L]; cbn.
    + split; [exact Hok|]. split; [lra|].
      intros t' [<-|Hin]; [exact L|].
      assert (t <= t').
      { clear - Hs Hin. induction used as [|x u IH]; cbn in Hs.
        - inversion Hs as [|? ? ? HF]; subst. rewrite Forall_forall in HF. apply HF, Hin.
        - inversion Hs; subst. apply IH; assumption. }
      lra.
    + assert (Hle : forall s, In s used -> s <= t).
      { clear - Hs. induction used as [|x u IH]; intros s Hin; [destruct Hin|].
        cbn in Hs. inversion Hs as [|? ? Hs' HF]; subst. destruct Hin as [<-|Hin].
        - rewrite Forall_forall in HF. apply HF. apply in_or_app; right; left; reflexivity.
        - apply IH; assumption. }
      destruct (ok_step f used t Hf Hok Hle ltac:(lra)) as [Hok' [Hdec _]].
      destruct (IH (used ++ [t]) Hok') as [H1 [H2 H3]].
      { rewrite <- app_assoc. exact Hs. }
      split; [exact H1|]. split; [lra|exact H3].
Qed.

(** *** sorting *)
Fixpoint Rinsert (x : R) (l : list R) : list R :=
  match l with
  | [] => [x]
  | y :: r => if Rlt_dec x y then x :: y :: r else y :: Rinsert x r
  end.
Fixpoint Rsort (l : list R) : list R :=
  match l with [] => [] | x :: r => Rinsert x (Rsort r) end.

Lemma Rinsert_perm x l : Permutation (Rinsert x l) (x :: l).
Proof.
  induction l as [|y r IH]; cbn; [reflexivity|]. destruct (Rlt_dec x y); [reflexivity|].
  rewrite IH. apply perm_swap.
Qed.
Lemma Rsort_perm l : Permutation (Rsort l) l.
Proof. induction l as [|x r IH]; cbn; [reflexivity|]. rewrite Rinsert_perm, IH. reflexivity. Qed.

Lemma Rinsert_sorted x l : Rsorted l -> Rsorted (Rinsert x l).
Proof.
  intros H; induction H as [|y r Hr IH HF]; cbn; [repeat constructor|].
  destruct (Rlt_dec x y) as [L|L].
  - constructor; [constructor; assumption|]. constructor; [lra|].
    eapply Forall_impl; [|exact HF]. cbn; intros; lra.
  - constructor; [exact IH|]. rewrite Forall_forall in *. intros z Hz.
    apply (Permutation_in z (Rinsert_perm x r)) in Hz. destruct Hz as [<-|Hz]; [lra|apply HF, Hz].
Qed.
Lemma Rsort_sorted l : Rsorted (Rsort l).
Proof. induction l as [|x r IH]; cbn; [constructor|apply Rinsert_sorted, IH]. Qed.

Lemma Rsorted_perm_eq a b : Rsorted a -> Rsorted b -> Permutation a b -> a = b.
Proof.
  intros Ha; revert b; induction Ha as [|x r Hr IH HF]; intros b Hb Hp.
  - apply Permutation_nil in Hp; auto.
  - destruct b as [|y s]; [symmetry in Hp; apply Permutation_nil in Hp; discriminate|].
    inversion Hb as [|? ? Hs HG]; subst.
    rewrite Forall_forall in HF, HG.
    assert (x = y).
    { assert (H1 : In x (y :: s)) by (eapply Permutation_in; [exact Hp|left; reflexivity]).
      assert (H2 : In y (x :: r)) by (eapply Permutation_in; [symmetry; exact Hp|left; reflexivity]).
      destruct H1 as [H1|H1]; [auto|]. destruct H2 as [H2|H2]; [auto|].
      apply HG in H1. apply HF in H2. lra. }
    subst y. f_equal. apply IH; [exact Hs|]. eapply Permutation_cons_inv; exact Hp.
Qed.

Lemma Rsort_perm_eq a b : Permutation a b -> Rsort a = Rsort b.
Proof.
  intros H. apply Rsorted_perm_eq; try apply Rsort_sorted.
  rewrite !Rsort_perm. exact H.
Qed.

(** the update of a cell: F f m ts (ts <> []) *)
Definition RF (f m : R) (ts : list R) : R :=
  match Rsort ts with
  | [] => 0
  | t :: r => Rloop f m [t] r
  end.

Lemma RF_perm f m a b : Permutation a b -> RF f m a = RF f m b.
Proof. intros H; unfold RF; rewrite (Rsort_perm_eq a b H); reflexivity. Qed.

(** decomposition of the sorted list at the stopping point *)
Lemma RF_split f m ts :
  0 < f -> 0 < m -> ts <> [] ->
  exists used rest, Rsort ts = used ++ rest /\ ok_used f used /\ RF f m ts = Rnd f used /\
                    (forall t, In t rest -> Rnd f used - t < m).
Proof.
  intros Hf Hm Hne. unfold RF. pose proof (Rsort_sorted ts) as Hs.
  destruct (Rsort ts) as [|t r] eqn:E.
  { pose proof (Rsort_perm ts) as Hp. rewrite E in Hp. apply Permutation_nil in Hp. congruence. }
  destruct (Rused_ok f m [t] r Hf Hm (ok_singleton f t Hf) Hs) as [H1 [H2 H3]].
  exists (fst (Rused f m [t] r)), (snd (Rused f m [t] r)).
  split; [rewrite Rused_app; reflexivity|]. split; [exact H1|].
  split; [apply Rloop_used|exact H3].
Qed.

Theorem RF_bounds f m ts :
  0 < f -> 0 < m -> ts <> [] ->
  f * f <= upwind_sum ts (RF f m ts) /\ upwind_sum ts (RF f m ts - m) < f * f /\
  (exists t, In t ts /\ t < RF f m ts).
Proof.
  intros Hf Hm Hne.
  destruct (RF_split f m ts Hf Hm Hne) as [used [rest [E [[Hne' [HP [Hs HD]]] [-> Hrest]]]]].
  assert (Hp : Permutation ts (used ++ rest)) by (rewrite <- E; symmetry; apply Rsort_perm).
  rewrite !(US_perm _ _ _ Hp), !US_app. set (u := Rnd f used) in *.
  split; [|split].
  - rewrite (US_eq_P used u) by (intros; apply Rlt_le, Hs; assumption).
    pose proof (US_nonneg rest u). lra.
  - rewrite (US_zero rest (u - m)) by (intros t Ht; specialize (Hrest t Ht); lra).
    assert (Hpos : 0 < upwind_sum used u).
    { rewrite (US_eq_P used u) by (intros; apply Rlt_le, Hs; assumption). nra. }
    pose proof (US_strict used (u - m) u ltac:(lra) Hpos) as Hlt.
    rewrite (US_eq_P used u) in Hlt by (intros; apply Rlt_le, Hs; assumption). lra.
  - destruct used as [|t r]; [congruence|]. exists t. split; [|apply Hs; left; reflexivity].
    apply (Permutation_in t (Permutation_sym Hp)). left; reflexivity.
Qed.

(** (A): more upwind values, all above the first ones, can only lower the result *)
Lemma Rloop_app_le f m used r1 r2 :
  0 < f -> 0 < m -> ok_used f used -> Rsorted (used ++ r1 ++ r2) ->
  Rloop f m used (r1 ++ r2) <= Rloop f m used r1.
Proof.
  intros Hf Hm. revert used; induction r1 as [|t r1 IH]; intros used Hok Hs.
  - cbn [app Rloop]. rewrite Rloop_used.
    destruct (Rused_ok f m used r2 Hf Hm Hok Hs) as [_ [H _]]. exact H.
  - cbn [app Rloop]. destruct (Rlt_dec (Rnd f used - t) m) as [L|L]; [lra|].
    apply IH.
    + apply ok_step; auto; [|lra].
      intros s Hin. clear - Hs Hin. induction used as [|x u IHu]; [destruct Hin|].
      cbn in Hs. inversion Hs as [|? ? Hs' HF]; subst. destruct Hin as [<-|Hin].
      * rewrite Forall_forall in HF. apply HF. apply in_or_app; right; left; reflexivity.
      * apply IHu; assumption.
    + rewrite <- app_assoc. exact Hs.
Qed.

Lemma Rsorted_app a b : Rsorted a -> Rsorted b -> (forall x y, In x a -> In y b -> x <= y) -> Rsorted (a ++ b).
Proof.
  intros Ha Hb H. induction Ha as [|x r Hr IH HF]; [exact Hb|]. cbn. constructor.
  - apply IH. intros; apply H; [right|]; assumption.
  - rewrite Forall_forall in *. intros y Hy. apply in_app_or in Hy. destruct Hy as [Hy|Hy]; [apply HF, Hy|].
    apply H; [left; reflexivity|exact Hy].
Qed.

Theorem RF_app_le f m l1 l2 :
  0 < f -> 0 < m -> l1 <> [] -> (forall x y, In x l1 -> In y l2 -> x <= y) ->
  RF f m (l1 ++ l2) <= RF f m l1.
Proof.
  intros Hf Hm Hne Hle.
  assert (E : Rsort (l1 ++ l2) = Rsort l1 ++ Rsort l2).
  { apply Rsorted_perm_eq; [apply Rsort_sorted| |].
    - apply Rsorted_app; try apply Rsort_sorted. intros x y Hx Hy. apply Hle.
      + apply (Permutation_in x (Rsort_perm l1)), Hx.
      + apply (Permutation_in y (Rsort_perm l2)), Hy.
    - rewrite !Rsort_perm. reflexivity. }
  pose proof (Rsort_sorted (l1 ++ l2)) as Hs. rewrite E in Hs.
  unfold RF. rewrite E. destruct (Rsort l1) as [|t r] eqn:E1.
  { pose proof (Rsort_perm l1) as Hp. rewrite E1 in Hp. apply Permutation_nil in Hp. congruence. }
  cbn [app]. apply (Rloop_app_le f m [t] r (Rsort l2)); auto. apply ok_singleton, Hf.
Qed.


(** (B): values not below the result do not matter *)
Definition below (c : R) (l : list R) : list R :=
  filter (fun t => if Rlt_dec t c then true else false) l.

Lemma in_below c l t : In t (below c l) <-> In t l /\ t < c.
Proof.
  unfold below; rewrite filter_In. destruct (Rlt_dec t c); intuition discriminate.
Qed.

Lemma below_app c a b : below c (a ++ b) = below c a ++ below c b.
Proof. apply filter_app. Qed.

Lemma below_all c l : (forall t, In t l -> t < c) -> below c l = l.
Proof.
  induction l as [|t r IH]; intros H; [reflexivity|]. cbn.
  destruct (Rlt_dec t c) as [L|L]; [|exfalso; apply L, H; left; reflexivity].
  f_equal. apply IH. intros; apply H; right; assumption.
Qed.

Lemma below_perm c a b : Permutation a b -> Permutation (below c a) (below c b).
Proof.
  intros H; induction H; cbn; auto.
  - destruct (Rlt_dec x c); [constructor|]; assumption.
  - destruct (Rlt_dec x c), (Rlt_dec y c); try reflexivity. apply perm_swap.
  - eapply Permutation_trans; eassumption.
Qed.

Lemma below_sorted c l : Rsorted l -> Rsorted (below c l).
Proof.
  intros H; induction H as [|x r Hr IH HF]; cbn; [constructor|].
  destruct (Rlt_dec x c); [|exact IH]. constructor; [exact IH|].
  rewrite Forall_forall in *. intros y Hy. apply HF. apply in_below in Hy. apply Hy.
Qed.

Lemma Rsort_below c l : Rsort (below c l) = below c (Rsort l).
Proof.
  apply Rsorted_perm_eq; [apply Rsort_sorted|apply below_sorted, Rsort_sorted|].
  rewrite Rsort_perm. apply below_perm. symmetry. apply Rsort_perm.
Qed.

Lemma Rloop_below f m c used rest :
  0 < f -> 0 < m -> ok_used f used -> Rsorted (used ++ rest) ->
  Rloop f m used rest <= c ->
  Rloop f m used (below c rest) = Rloop f m used rest /\ (forall s, In s used -> s < c).
Proof.
  intros Hf Hm. revert used; induction rest as [|t r IH]; intros used Hok Hs Hc.
  - cbn in *. split; [reflexivity|]. intros s Hin. destruct Hok as [_ [_ [H _]]].
    specialize (H s Hin). lra.
  - assert (Hle : forall s, In s used -> s <= t).
    { clear - Hs. induction used as [|x u IH]; intros s Hin; [destruct Hin|].
      cbn in Hs. inversion Hs as [|? ? Hs' HF]; subst. destruct Hin as [<-|Hin].
      - rewrite Forall_forall in HF. apply HF. apply in_or_app; right; left; reflexivity.
      - apply IH; assumption. }
    cbn [Rloop] in Hc |- *.
    destruct (Rlt_dec (Rnd f used - t) m) as [L|L].
    + split.
      * cbn [below filter]. fold (below c r). destruct (Rlt_dec t c) as [L2|L2].
        -- cbn [Rloop]. destruct (Rlt_dec (Rnd f used - t) m); [reflexivity|contradiction].
        -- assert (E : below c r = []).
           { clear - Hs L2. assert (Ht : Rsorted (t :: r)).
             { induction used as [|x u IH]; [exact Hs|]. apply IH. cbn in Hs. inversion Hs; assumption. }
             inversion Ht as [|? ? _ HF]; subst. rewrite Forall_forall in HF.
             destruct (below c r) as [|y s] eqn:E; [reflexivity|exfalso].
             assert (Hy : In y (below c r)) by (rewrite E; left; reflexivity).
             apply in_below in Hy. destruct Hy as [Hy1 Hy2]. specialize (HF y Hy1). lra. }
           rewrite E. reflexivity.
      * intros s Hin. destruct Hok as [_ [_ [H _]]]. specialize (H s Hin). lra.
    + destruct (ok_step f used t Hf Hok Hle ltac:(lra)) as [Hok' [_ Ht]].
      destruct (IH (used ++ [t]) Hok' ltac:(rewrite <- app_assoc; exact Hs) Hc) as [H1 H2].
      split; [|intros s Hin; apply H2, in_or_app; left; exact Hin].
      assert (Htc : t < c) by (apply H2, in_or_app; right; left; reflexivity).
      cbn [below filter]. fold (below c r). destruct (Rlt_dec t c) as [_|L2]; [|contradiction].
      cbn [Rloop]. destruct (Rlt_dec (Rnd f used - t) m); [contradiction|]. exact H1.
Qed.

Theorem RF_below f m c l :
  0 < f -> 0 < m -> l <> [] -> RF f m l <= c ->
  below c l <> [] /\ RF f m (below c l) = RF f m l.
Proof.
  intros Hf Hm Hne. unfold RF. rewrite Rsort_below. pose proof (Rsort_sorted l) as Hs.
  destruct (Rsort l) as [|t r] eqn:E.
  { pose proof (Rsort_perm l) as Hp. rewrite E in Hp. apply Permutation_nil in Hp. congruence. }
  intros Hc.
  destruct (Rloop_below f m c [t] r Hf Hm (ok_singleton f t Hf) Hs Hc) as [H1 H2].
  specialize (H2 t (or_introl eq_refl)). split.
  - intros Hb. assert (Hin : In t (below c l)).
    { apply in_below. split; [|exact H2]. apply (Permutation_in t (Rsort_perm l)). rewrite E; left; reflexivity. }
    rewrite Hb in Hin. destruct Hin.
  - cbn [below filter]. fold (below c r). destruct (Rlt_dec t c) as [_|L]; [exact H1|contradiction].
Qed.

(** uniqueness of the root and its distance from the result *)
Lemma US_root_unique f ts r1 r2 :
  0 < f -> upwind_sum ts r1 = f * f -> upwind_sum ts r2 = f * f -> r1 = r2.
Proof.
  intros Hf H1 H2. destruct (Rtotal_order r1 r2) as [L|[L|L]]; [|exact L|].
  - pose proof (US_strict ts r1 r2 L ltac:(nra)). lra.
  - pose proof (US_strict ts r2 r1 L ltac:(nra)). lra.
Qed.

Lemma RF_near_root f m ts r :
  0 < f -> 0 < m -> ts <> [] -> upwind_sum ts r = f * f ->
  r <= RF f m ts < r + m.
Proof.
  intros Hf Hm Hne Hr. destruct (RF_bounds f m ts Hf Hm Hne) as [H1 [H2 _]]. split.
  - destruct (Rle_dec r (RF f m ts)) as [L|L]; [exact L|exfalso].
    pose proof (US_strict ts (RF f m ts) r ltac:(lra) ltac:(nra)). lra.
  - destruct (Rlt_dec (RF f m ts) (r + m)) as [L|L]; [exact L|exfalso].
    pose proof (US_mono ts r (RF f m ts - m) ltac:(lra)). lra.
Qed.

Lemma root_exists_sorted f used rest :
  0 < f -> ok_used f used -> Rsorted (used ++ rest) -> exists r, upwind_sum (used ++ rest) r = f * f.
Proof.
  intros Hf. revert used; induction rest as [|t r IH]; intros used Hok Hs.
  - exists (Rnd f used). rewrite app_nil_r. destruct Hok as [_ [HP [Hu _]]].
    rewrite US_eq_P; [exact HP|]. intros s Hin; apply Rlt_le, Hu, Hin.
  - destruct (Rlt_dec t (Rnd f used)) as [L|L].
    + assert (Hle : forall s, In s used -> s <= t).
      { clear - Hs. induction used as [|x u IH]; intros s Hin; [destruct Hin|].
        cbn in Hs. inversion Hs as [|? ? Hs' HF]; subst. destruct Hin as [<-|Hin].
        - rewrite Forall_forall in HF. apply HF. apply in_or_app; right; left; reflexivity.
        - apply IH; assumption. }
      destruct (ok_step f used t Hf Hok Hle L) as [Hok' _].
      destruct (IH (used ++ [t]) Hok') as [x Hx].
      { rewrite <- app_assoc. exact Hs. }
      exists x. rewrite <- app_assoc in Hx. exact Hx.
    + exists (Rnd f used). rewrite US_app. destruct Hok as [_ [HP [Hu _]]].
      rewrite US_eq_P by (intros s Hin; apply Rlt_le, Hu, Hin).
      rewrite (US_zero (t :: r)); [lra|].
      assert (Ht : Rsorted (t :: r)).
      { clear - Hs. induction used as [|x u IH]; [exact Hs|]. apply IH. cbn in Hs. inversion Hs; assumption. }
      inversion Ht as [|? ? _ HF]; subst. rewrite Forall_forall in HF.
      intros s [<-|Hin]; [lra|]. specialize (HF s Hin). lra.
Qed.

Theorem US_root_exists f ts : 0 < f -> ts <> [] -> exists r, upwind_sum ts r = f * f.
Proof.
  intros Hf Hne. pose proof (Rsort_sorted ts) as Hs. pose proof (Rsort_perm ts) as Hp.
  destruct (Rsort ts) as [|t r] eqn:E.
  { apply Permutation_nil in Hp. congruence. }
  destruct (root_exists_sorted f [t] r Hf (ok_singleton f t Hf) Hs) as [x Hx].
  exists x. rewrite <- Hx. apply US_perm. symmetry. exact Hp.
Qed.

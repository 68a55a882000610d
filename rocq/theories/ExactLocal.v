(** ExactLocal.v - more about the exact solution: how it depends on the costs
    (stability), on which cells (causality), and its values on open ground. *)
From Coq Require Import Reals Lra Psatz Permutation.
From Verif Require Import Base BaseFacts Grid GridFacts GridMore Spec EikR Solution GridUpd Relax Exact ExactMore.
Open Scope Z_scope.

Section One.
Variable dims : list Z.
Hypothesis Hp : proper dims.

(** *** costs at most k times as large give times at most k times as large *)
Theorem exact_stable k (init : list Z) (fr fr' : Z -> Prop) f f' X X' : (0 < k)%R ->
  (forall i, fr i -> 0 < f i)%R -> (forall i, fr' i -> 0 < f' i)%R -> (forall i, In i init -> 0 <= i < box_size dims) ->
  (forall i, fr i -> fr' i /\ (f' i <= k * f i)%R) ->
  exact_solution dims (fun i => In i init) fr f X -> exact_solution dims (fun i => In i init) fr' f' X' ->
  forall i t, X i = Some t -> exists t', X' i = Some t' /\ (t' <= k * t)%R.
Proof.
  intros Hk Hf Hf' Hr Hle HX HX' i t Ht.
  pose proof (exact_scale dims Hp k _ _ _ X Hk HX) as HS.
  apply (exact_mono dims Hp init init fr fr' (fun i => k * f i)%R f' _ X' Hf' (fun _ h => h) Hr) with (i := i) (t := (k * t)%R) in HS; auto.
  - intros j Hj. destruct (Hle j Hj) as [A B]. split; [exact A|]. split; [apply Rmult_lt_0_compat; auto|exact B].
  - rewrite Ht. reflexivity.
Qed.

(** *** a time is decided by the cells reached before *)
Lemma US_cut t0 : forall l l' u, (u <= t0)%R ->
  Forall2 (fun (m m' : option R) => m' = m \/ (m' = None /\ exists r, m = Some r /\ (t0 < r)%R)) l l' ->
  upwind_sum (somes l') u = upwind_sum (somes l) u.
Proof.
  intros l l' u Hu H. induction H as [|m m' l l' H _ IH]; [reflexivity|].
  destruct H as [->|[-> [r [-> Hr]]]].
  - destruct m as [r|]; [|exact IH]. change (somes (Some r :: l')) with (r :: somes l'). change (somes (Some r :: l)) with (r :: somes l). rewrite !US_cons, IH. reflexivity.
  - change (somes (None :: l')) with (somes l'). change (somes (Some r :: l)) with (r :: somes l). rewrite US_cons, IH.
    replace (Rmax (u - r) 0) with 0%R by (rewrite Rmax_right; lra). unfold Rsqr. ring.
Qed.

Theorem exact_causal t0 (init : list Z) (fr fr' : Z -> Prop) f f' X X' :
  (forall i, fr i -> 0 < f i)%R -> (forall i, fr' i -> 0 < f' i)%R -> (forall i, In i init -> 0 <= i < box_size dims) ->
  (forall i, fr' i -> fr i /\ (f i <= f' i)%R) ->
  (forall i t, X i = Some t -> (t <= t0)%R -> ~ In i init -> fr' i /\ f' i = f i) ->
  exact_solution dims (fun i => In i init) fr f X -> exact_solution dims (fun i => In i init) fr' f' X' ->
  forall i t, (t <= t0)%R -> (X i = Some t <-> X' i = Some t).
Proof.
  intros Hf Hf' Hr Hle Hsame HX HX'.
  set (cut := fun m : option R => match m with Some r => if Rle_dec r t0 then Some r else None | None => None end).
  set (T := fun i => cut (X i)).
  assert (HT : forall i t, T i = Some t <-> X i = Some t /\ (t <= t0)%R).
  { intros i t. unfold T, cut. destruct (X i) as [x|]; [|split; [discriminate|intros [K _]; discriminate]].
    destruct (Rle_dec x t0) as [L|L]; split; [intros K; injection K as <-; auto|intros [K _]; exact K|discriminate|intros [K1 K2]; injection K1 as <-; lra]. }
  assert (Hmin : forall i, 0 <= i < box_size dims -> dmins dims T i = map cut (dmins dims X i)).
  { intros i Hi. symmetry. apply (minima_unique dims T i _ Hp Hi). pose proof (dmins_spec dims X i Hp Hi) as M. unfold minima in *.
    induction M as [|d m ds ms M _ IH]; cbn [map]; constructor; [|exact IH]. destruct m as [r|]; cbn [cut dim_min] in *.
    - destruct M as [[j [J1 J2]] J3]. destruct (Rle_dec r t0) as [L|L]; cbn [dim_min].
      + split; [exists j; split; [exact J1|apply HT; auto]|]. intros k s Hk Hs. apply HT in Hs. apply (J3 k s Hk). apply Hs.
      + intros k Hk. destruct (T k) as [s|] eqn:E; [|reflexivity]. apply HT in E. destruct E as [E1 E2]. pose proof (J3 k s Hk E1). lra.
    - intros k Hk. unfold T. rewrite (M k Hk). reflexivity. }
  assert (Hsup : super_solution dims (fun i => In i init) fr' f' T \/ (t0 < 0)%R).
  { destruct (Rlt_dec t0 0) as [L|L]; [right; exact L|left]. apply super_intro; [exact Hp| | |].
    - intros i Hi. apply HT. split; [apply (ex_src _ _ _ _ _ HX i Hi)|lra].
    - intros i t Ht. apply HT in Ht. apply (ex_range _ _ _ _ _ HX i t), Ht.
    - intros i t Ht Hn. apply HT in Ht. destruct Ht as [Ht Hl]. destruct (ex_at dims Hp _ _ _ _ i t HX Ht Hn) as [Hi [_ E]].
      destruct (Hsame i t Ht Hl Hn) as [A ->]. split; [exact A|]. rewrite <- E. apply Req_le. rewrite (Hmin i Hi). symmetry.
      apply (US_cut t0); [exact Hl|]. generalize (dmins dims X i). intros ms. induction ms as [|m ms IH]; cbn [map]; constructor; [|exact IH].
      unfold cut. destruct m as [r|]; [|left; reflexivity]. destruct (Rle_dec r t0); [left; reflexivity|right]. split; [reflexivity|]. exists r. split; [reflexivity|lra]. }
  assert (Hdown : forall i t, X' i = Some t -> exists s, X i = Some s /\ (s <= t)%R).
  { intros i t Ht. apply (exact_mono dims Hp init init fr' fr f' f X' X Hf (fun _ h => h) Hr) with (i := i); auto.
    intros j Hj. destruct (Hle j Hj). auto. }
  assert (Hup : forall i t, X i = Some t -> (t <= t0)%R -> X' i = Some t).
  { intros i t Ht Hl. pose proof (ex_nonneg _ _ _ _ _ HX i t Ht) as H0. destruct Hsup as [Hsup|Hsup]; [|lra].
    destruct (exact_below_super dims init fr' f' Hp Hf' T X' HX' Hsup) with (i := i) (t := t) as [t' [E L]].
    - intros k s Hk. apply HT in Hk. apply (ex_nonneg _ _ _ _ _ HX k s), Hk.
    - exact (ex_range _ _ _ _ _ HX i t Ht).
    - apply HT. auto.
    - destruct (Hdown i t' E) as [s [Es Ls]]. assert (s = t) by congruence. subst s. assert (t' = t) by lra. congruence. }
  intros i t Hl. split; [intros Ht; apply Hup; assumption|]. intros Ht. destruct (Hdown i t Ht) as [s [Es Ls]].
  assert (Es' : X' i = Some s) by (apply Hup; [exact Es|lra]). congruence.
Qed.
End One.

(** *** open ground *)
(** the number of steps between two cells *)
Fixpoint manhattan (cs ds : list Z) : Z := match cs, ds with c :: cr, d :: dr => Z.abs (c - d) + manhattan cr dr | _, _ => 0 end.
(** the cells of the block spanned by two cells *)
Inductive in_block : list Z -> list Z -> list Z -> Prop :=
| ib_nil : in_block [] [] []
| ib_cons a b c ra rb rc : Z.min a b <= c <= Z.max a b -> in_block ra rb rc -> in_block (a :: ra) (b :: rb) (c :: rc).

Lemma manhattan_nonneg cs : forall ds, 0 <= manhattan cs ds.
Proof. induction cs as [|c cs IH]; intros [|d ds]; cbn; try lia. specialize (IH ds). lia. Qed.

Lemma manhattan_same cs : manhattan cs cs = 0.
Proof. induction cs; cbn [manhattan]; lia. Qed.

Lemma closer cs : forall dims ss, in_box dims cs -> in_box dims ss -> manhattan cs ss <> 0 ->
  exists ds, in_box dims ds /\ unit_step ds cs /\ manhattan cs ss = 1 + manhattan ds ss /\ forall xs, in_block ss ds xs -> in_block ss cs xs.
Proof.
  induction cs as [|c cs IH]; intros dims ss Hc Hs Hm; inversion Hc as [|n ? ns ? Hc1 Hcr]; subst; inversion Hs as [|? e ? sr He Her]; subst; [cbn in Hm; lia|].
  destruct (Z.eq_dec c e) as [->|Hne].
  - cbn in Hm. destruct (IH ns sr Hcr Her ltac:(lia)) as [ds [A [B [C D]]]]. exists (e :: ds). split; [constructor; auto|]. split; [constructor; exact B|]. split; [cbn [manhattan]; lia|].
    intros xs Hx. inversion Hx; subst. constructor; auto.
  - exists ((if c <? e then c + 1 else c - 1) :: cs). destruct (Z.ltb_spec c e) as [L|L]; (split; [constructor; [lia|exact Hcr]|]; split; [constructor; lia|]; split; [cbn [manhattan]; lia|]; intros xs Hx; inversion Hx; subst; constructor; [lia|assumption]).
Qed.

Lemma block_corner dims : forall ss cs, in_box dims ss -> in_box dims cs -> in_block ss cs cs.
Proof. induction dims as [|n ns IH]; intros ss cs Hs Hc; inversion Hs; subst; inversion Hc; subst; constructor; [lia|]. apply IH; assumption. Qed.

Theorem exact_open_ground dims (src fr : Z -> Prop) f fmax X ss : proper dims -> (forall i, fr i -> 0 < f i)%R -> (forall i, {src i} + {~ src i}) ->
  in_box dims ss -> src (cell_number dims ss) -> exact_solution dims src fr f X -> (0 <= fmax)%R ->
  forall cs, in_box dims cs ->
  (forall xs, in_box dims xs -> in_block ss cs xs -> xs <> ss -> fr (cell_number dims xs) /\ (f (cell_number dims xs) <= fmax)%R) ->
  exists t, X (cell_number dims cs) = Some t /\ (t <= fmax * IZR (manhattan cs ss))%R.
Proof.
  intros Hp Hf Hd Hss Hsrc HX Hfm cs Hcs. remember (Z.to_nat (manhattan cs ss)) as n eqn:En. revert cs Hcs En.
  induction n as [|n IH]; intros cs Hcs En Hb; pose proof (manhattan_nonneg cs ss) as Hnn.
  - assert (E0 : manhattan cs ss = 0) by lia. assert (cs = ss).
    { revert E0. clear - Hcs Hss. revert ss Hss. induction Hcs as [|m c ns cr Hc Hr IH]; intros ss Hss E; inversion Hss as [|? e ? sr He Her]; subst; [reflexivity|].
      cbn [manhattan] in E. pose proof (manhattan_nonneg cr sr). f_equal; [lia|]. apply IH; [assumption|lia]. }
    subst cs. exists 0%R. split; [apply (ex_src _ _ _ _ _ HX); exact Hsrc|]. rewrite E0. lra.
  - destruct (closer cs dims ss Hcs Hss ltac:(lia)) as [ds [A [B [C D]]]].
    destruct (IH ds A ltac:(lia)) as [a [Ha La]].
    { intros xs Hxs Hx Hne. apply Hb; auto. }
    assert (Hne : cs <> ss) by (intros ->; rewrite manhattan_same in En; discriminate En).
    destruct (Hb cs Hcs (block_corner _ _ _ Hss Hcs) Hne) as [F1 F2].
    destruct (exact_step dims Hp src fr f X (cell_number dims ds) (cell_number dims cs) a Hf Hd HX Ha) as [t [Ht Lt]]; [exists ds, cs; auto|exact F1|].
    exists t. split; [exact Ht|]. rewrite C, plus_IZR. lra.
Qed.

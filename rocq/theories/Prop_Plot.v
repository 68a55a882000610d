(** Prop_Plot.v - property theorems C72-C74: what the plots show, drawing paths, selecting points. *)
From Coq Require Import Reals Lra.
From Verif Require Import Base BaseFacts Num NumXR NumF64 NumLaws Grid GridFacts GridUpd GridMore Spec Obs XGrid IOModel PlotModel
  SolverModel GDModel DescentSpec FM2Facts Prop_IO Prop_GD Prop_Untidy.
Open Scope Z_scope.

(** ** Specification *)
(** The picture [im] has [ch] channels and, in each of them, the pixel in column x and row y
    (row 0 at the top) shows cell (x, h-1-y): the y axis of the grid points upwards. *)
Definition picture_of {N : Num} {T} (w h ch : Z) (g : grid N) (show : cell N -> T) (im : image T) : Prop :=
  im_w im = w /\ im_h im = h /\ im_c im = ch /\
  forall x y k, 0 <= x < w -> 0 <= y < h -> 0 <= k < ch ->
    exists c, getCell g (cell_number [w; h] [x; h - 1 - y]) = Ok c /\ img_get im x y k = Ok (show c).

(** the point p of a path falls on cell (a, b) *)
Definition falls_on {N : Num} (p : list N) (a b : Z) : Prop :=
  exists u v, p = [u; v] /\ ntrunc u = Some a /\ ntrunc v = Some b.
Definition inside {N : Num} (w h : Z) (p : list N) : Prop :=
  exists a b, falls_on p a b /\ 0 <= a < w /\ 0 <= b < h.

(** ** Filling an image *)
Definition img_ok {T} (im : image T) : Prop :=
  0 <= im_w im /\ 0 <= im_h im /\ 0 <= im_c im /\ Z.of_nat (length (im_data im)) = im_w im * im_h im * im_c im.
Definition same_size {T} (a b : image T) : Prop := im_w a = im_w b /\ im_h a = im_h b /\ im_c a = im_c b.
Definition in_img {T} (im : image T) (x y k : Z) : Prop := 0 <= x < im_w im /\ 0 <= y < im_h im /\ 0 <= k < im_c im.

Lemma offset_lt (w h x y : Z) : 0 <= x < w -> 0 <= y < h -> 0 <= x + y * w < w * h.
Proof. intros Hx Hy. nia. Qed.

Lemma mixed_radix (m a b k k' : Z) : 0 <= a < m -> 0 <= b < m -> a + k * m = b + k' * m -> a = b /\ k = k'.
Proof. intros Ha Hb E. assert (k = k') by nia. subst. lia. Qed.

Lemma offset_inj (w h x y k x' y' k' : Z) : 0 <= x < w -> 0 <= y < h -> 0 <= x' < w -> 0 <= y' < h ->
  x + y * w + k * (w * h) = x' + y' * w + k' * (w * h) -> x = x' /\ y = y' /\ k = k'.
Proof.
  intros Hx Hy Hx' Hy' E.
  destruct (mixed_radix _ _ _ _ _ (offset_lt w h x y Hx Hy) (offset_lt w h x' y' Hx' Hy') E) as [E1 E2].
  destruct (mixed_radix _ _ _ _ _ Hx Hx' E1) as [E3 E4]. auto.
Qed.

Lemma offset_range {T} (im : image T) x y k : img_ok im -> in_img im x y k -> 0 <= img_offset im x y k < Z.of_nat (length (im_data im)).
Proof.
  intros [H1 [H2 [H3 H4]]] [K1 [K2 K3]]. unfold img_offset. rewrite H4. split; [nia|].
  pose proof (offset_lt _ _ _ _ K1 K2). nia.
Qed.

Lemma img_set_spec {T} (im : image T) x y k v : img_ok im -> in_img im x y k ->
  exists im', img_set im x y k v = Ok im' /\ img_ok im' /\ same_size im im' /\
    forall x' y' k', in_img im x' y' k' ->
      img_get im' x' y' k' = if (x' =? x) && (y' =? y) && (k' =? k) then Ok v else img_get im x' y' k'.
Proof.
  intros HI Hin. pose proof (offset_range im x y k HI Hin) as Hr. unfold img_set, vset.
  destruct (Z.leb_spec 0 (img_offset im x y k)); [|lia]. destruct (Z.ltb_spec (img_offset im x y k) (Z.of_nat (length (im_data im)))); [|lia].
  cbn [andb bind]. eexists. split; [reflexivity|]. split; [|split].
  - destruct HI as [H1 [H2 [H3 H4]]]. unfold img_ok. cbn [im_w im_h im_c im_data]. rewrite length_lset. auto.
  - repeat split.
  - intros x' y' k' Hin'. pose proof (offset_range im x' y' k' HI Hin') as Hr'. unfold img_get, img_offset. cbn [im_w im_h im_c im_data].
    fold (img_offset im x y k). fold (img_offset im x' y' k').
    unfold vget. destruct (Z.leb_spec 0 (img_offset im x' y' k')) as [_|]; [|lia]. rewrite nth_error_lset.
    destruct (Nat.eqb_spec (Z.to_nat (img_offset im x y k)) (Z.to_nat (img_offset im x' y' k'))) as [E|E].
    + assert (E' : img_offset im x y k = img_offset im x' y' k') by lia. unfold img_offset in E'.
      destruct Hin as [K1 [K2 K3]], Hin' as [K1' [K2' K3']].
      destruct (offset_inj _ _ _ _ _ _ _ _ K1 K2 K1' K2' E') as [-> [-> ->]]. rewrite !Z.eqb_refl. cbn [andb].
      destruct (nth_error (im_data im) _) eqn:En; [reflexivity|]. apply nth_error_None in En. lia.
    + destruct (Z.eqb_spec x' x) as [->|]; [|reflexivity]. destruct (Z.eqb_spec y' y) as [->|]; [|reflexivity].
      destruct (Z.eqb_spec k' k) as [->|]; [|reflexivity]. lia.
Qed.

Lemma same_trans {T} (a b c : image T) : same_size a b -> same_size b c -> same_size a c.
Proof. unfold same_size. intuition congruence. Qed.
Lemma same_in {T} (a b : image T) x y k : same_size a b -> (in_img a x y k <-> in_img b x y k).
Proof. intros [A [B C]]. unfold in_img. rewrite A, B, C. tauto. Qed.

Lemma coord_dec (p q : Z * Z * Z) : {p = q} + {p <> q}.
Proof. repeat decide equality. Qed.

Lemma fill_list {T} (f : Z -> Z -> res T) (F : Z -> Z -> T) l : forall im, img_ok im ->
  (forall x y k, In (x, y, k) l -> in_img im x y k) ->
  (forall x y, 0 <= x < im_w im -> 0 <= y < im_h im -> f x y = Ok (F x y)) ->
  exists im', foldM (fun im p => let '(x, y, k) := p in v <- f x y ;; img_set im x y k v) l im = Ok im' /\ img_ok im' /\ same_size im im' /\
    forall x y k, in_img im x y k -> (In (x, y, k) l -> img_get im' x y k = Ok (F x y)) /\ (~ In (x, y, k) l -> img_get im' x y k = img_get im x y k).
Proof.
  induction l as [|[[x y] k] l IH]; intros im HI Hl Hf; cbn [foldM].
  - exists im. split; [reflexivity|]. split; [exact HI|]. split; [repeat split|]. intros a b c _. split; [intros []|reflexivity].
  - pose proof (Hl x y k (or_introl eq_refl)) as Hin. rewrite (Hf x y) by apply Hin. cbn [bind].
    destruct (img_set_spec im x y k (F x y) HI Hin) as [im1 [E1 [O1 [S1 G1]]]]. rewrite E1. cbn [bind].
    destruct (IH im1 O1) as [im2 [E2 [O2 [S2 G2]]]].
    + intros a b c Hc. apply (same_in im im1); [exact S1|]. apply Hl. right; exact Hc.
    + intros a b. destruct S1 as [<- [<- _]]. apply Hf.
    + exists im2. split; [exact E2|]. split; [exact O2|]. split; [eapply same_trans; eassumption|].
      intros a b c Hc. destruct (G2 a b c (proj1 (same_in im im1 a b c S1) Hc)) as [A B]. specialize (G1 a b c Hc).
      destruct (in_dec coord_dec (a, b, c) l) as [J|J].
      * split; [intros _; auto|]. intros K. exfalso; apply K. right; exact J.
      * rewrite (B J), G1. split.
        -- intros [K|K]; [|contradiction]. inversion K; subst. rewrite !Z.eqb_refl. reflexivity.
        -- intros K. destruct (Z.eqb_spec a x) as [E3|]; [|reflexivity]. destruct (Z.eqb_spec b y) as [E4|]; [|reflexivity].
           destruct (Z.eqb_spec c k) as [E5|]; [|reflexivity]. exfalso; apply K. left; congruence.
Qed.

Lemma in_img_coords w h ch x y k : 0 <= w -> 0 <= h -> 0 <= ch ->
  (In (x, y, k) (img_coords w h ch) <-> 0 <= x < w /\ 0 <= y < h /\ 0 <= k < ch).
Proof.
  intros Hw Hh Hc. unfold img_coords. rewrite in_flat_map. split.
  - intros [k' [Hk H]]. apply in_flat_map in H. destruct H as [y' [Hy H]]. apply in_map_iff in H. destruct H as [x' [E Hx]].
    inversion E; subst. apply in_zseq in Hx, Hy, Hk. lia.
  - intros [Hx [Hy Hk]]. exists k. split; [apply in_zseq; lia|]. apply in_flat_map. exists y. split; [apply in_zseq; lia|].
    apply in_map_iff. exists x. split; [reflexivity|]. apply in_zseq; lia.
Qed.

Lemma img_new_ok {T} w h ch (z : T) : 0 <= w -> 0 <= h -> 0 <= ch -> img_ok (img_new w h ch z).
Proof. intros Hw Hh Hc. unfold img_ok, img_new. cbn [im_w im_h im_c im_data]. rewrite repeat_length. repeat split; auto. nia. Qed.

Lemma fill_spec {T} (f : Z -> Z -> res T) (F : Z -> Z -> T) w h ch (z : T) : 0 <= w -> 0 <= h -> 0 <= ch ->
  (forall x y, 0 <= x < w -> 0 <= y < h -> f x y = Ok (F x y)) ->
  exists im, img_fill f (img_new w h ch z) = Ok im /\ img_ok im /\ im_w im = w /\ im_h im = h /\ im_c im = ch /\
    forall x y k, 0 <= x < w -> 0 <= y < h -> 0 <= k < ch -> img_get im x y k = Ok (F x y).
Proof.
  intros Hw Hh Hc Hf. unfold img_fill. cbn [img_new im_w im_h im_c].
  destruct (fill_list f F (img_coords w h ch) (img_new w h ch z) (img_new_ok w h ch z Hw Hh Hc)) as [im [E [O [[S1 [S2 S3]] G]]]].
  - intros x y k H. apply in_img_coords in H; auto.
  - exact Hf.
  - exists im. split; [exact E|]. split; [exact O|]. cbn [img_new im_w im_h im_c] in *. repeat split; auto.
    intros x y k Hx Hy Hk. apply G; [repeat split; cbn; lia|]. apply in_img_coords; auto.
Qed.

Section Plots.
Context {N : Num}.
Variables (g : grid N) (w h : Z).
Hypothesis Hw : 1 <= w.
Hypothesis Hh : 1 <= h.
Hypothesis Hsz : w * h < 2147483648.
Hypothesis Hg : grid_ok [w; h] g.

Lemma plot_proper : proper [w; h].
Proof using Hw Hh. repeat (constructor; [lia|]); constructor. Qed.
Lemma plot_dims : dims_2d g = Ok (w, h).
Proof using Hw Hh Hsz Hg.
  unfold dims_2d. rewrite (proj1 Hg), mk_shape_eq; [reflexivity|exact plot_proper|cbn; nia].
Qed.

Lemma under_spec x y : 0 <= x < w -> 0 <= y < h ->
  exists c, getCell g (cell_number [w; h] [x; h - 1 - y]) = Ok c /\ cell_under g w h x y = Ok c.
Proof using Hw Hh Hsz Hg.
  intros Hx Hy. assert (E : cell_number [w; h] [x; h - 1 - y] = w * (h - y - 1) + x) by (cbn [cell_number]; lia).
  assert (R : 0 <= w * (h - y - 1) + x < w * h) by nia.
  destruct (getCell_in [w; h] g (w * (h - y - 1) + x) Hg) as [c Hc]; [cbn; nia|].
  exists c. rewrite E. split; [exact Hc|]. unfold cell_under, img_index.
  destruct (Z.leb_spec (-2147483648) (w * (h - y - 1) + x)); [|lia]. destruct (Z.ltb_spec (w * (h - y - 1) + x) 2147483648); [|lia].
  cbn [andb bind]. rewrite u32_small by lia. exact Hc.
Qed.

(** one image per way to show a cell *)
Lemma fill_picture {T} (show : cell N -> T) (z : T) ch : 0 <= ch ->
  exists im, img_fill (fun x y => c <- cell_under g w h x y ;; Ok (show c)) (img_new w h ch z) = Ok im /\ img_ok im /\ picture_of w h ch g show im.
Proof using Hw Hh Hsz Hg.
  intros Hc.
  set (d := fresh_cell 0 : cell N). set (cu := fun x y => match cell_under g w h x y with Ok c => c | _ => d end).
  destruct (fill_spec (fun x y => c <- cell_under g w h x y ;; Ok (show c)) (fun x y => show (cu x y)) w h ch z ltac:(lia) ltac:(lia) Hc) as [im [E [O [E1 [E2 [E3 G]]]]]].
  - intros x y Hx Hy. destruct (under_spec x y Hx Hy) as [c [_ Ec]]. unfold cu. rewrite Ec. reflexivity.
  - exists im. split; [exact E|]. split; [exact O|]. repeat split; auto. intros x y k Hx Hy Hk.
    destruct (under_spec x y Hx Hy) as [c [Hc' Ec]]. exists c. split; [exact Hc'|]. rewrite (G x y k Hx Hy Hk). unfold cu. rewrite Ec. reflexivity.
Qed.
End Plots.

(** ** C72 *)

(** On every two-dimensional grid (with fewer than 2^31 cells, any arithmetic) each plot is
    drawn and shows, pixel by pixel, the cell it should: obstacles black, occupancies times
    255, times relative to the largest finite one, states. *)
Theorem C72_plots_show_the_grid :
  forall (N : Num) (g : grid N) w h, 1 <= w -> 1 <= h -> w * h < 2147483648 -> grid_ok [w; h] g ->
  (exists im, plotMap g = Ok im /\ picture_of w h 1 g (fun c => negb (isOccupied c)) im) /\
  (exists im, plotOccupancyMap g = Ok im /\ picture_of w h 1 g (fun c => nmul (c_occ c) (nofZ 255)) im) /\
  (exists im, plotArrivalTimes g = Ok im /\ picture_of w h 1 g (fun c => nmul (ndiv (c_val c) (getMaxValue g)) (nofZ 255)) im) /\
  (exists im, plotFMStates g = Ok im /\
     picture_of w h 1 g (fun c => match c_state c with OPEN => 255 | NARROW => 127 | FROZEN => 0 end) im).
Proof.
  intros N g w h Hw Hh Hsz Hg. pose proof (plot_dims g w h Hw Hh Hsz Hg) as Ed.
  repeat split; unfold plotMap, plotOccupancyMap, plotArrivalTimes, plotFMStates; rewrite Ed; cbn [bind].
  - destruct (fill_picture g w h Hw Hh Hsz Hg (fun c => negb (isOccupied c)) false 1 ltac:(lia)) as [im [E [_ P]]]. eauto.
  - destruct (fill_picture g w h Hw Hh Hsz Hg (fun c => nmul (c_occ c) (nofZ 255)) n0 1 ltac:(lia)) as [im [E [_ P]]]. eauto.
  - destruct (fill_picture g w h Hw Hh Hsz Hg (fun c => nmul (ndiv (c_val c) (getMaxValue g)) (nofZ 255)) n0 1 ltac:(lia)) as [im [E [_ P]]]. eauto.
  - destruct (fill_picture g w h Hw Hh Hsz Hg (fun c => match c_state c with OPEN => 255 | NARROW => 127 | FROZEN => 0 end) 0 1 ltac:(lia)) as [im [E [_ P]]].
    exists im. split; [|exact P]. rewrite <- E. unfold img_fill. apply foldM_ext_in. intros s [[x y] k] _. destruct (cell_under g w h x y) as [c|]; [|reflexivity].
    cbn [bind]. destruct (c_state c); reflexivity.
Qed.
Print Assumptions C72_plots_show_the_grid.

(** Loading an image and plotting the occupancy map shows the image again (exact
    arithmetic), and the map plot shows white exactly the pixels that are not (nearly) black. *)
Theorem C72_plotting_a_loaded_image :
  forall (g : grid XR) (w h : Z) (img : Z -> Z -> R), 1 <= w -> 1 <= h -> w * h < 2147483648 ->
  exists g' im im', loadMapFromImg w h (fun x y => XFin (img x y) : XR) g = Ok g' /\
    plotOccupancyMap g' = Ok im /\ plotMap g' = Ok im' /\
    forall x y, 0 <= x < w -> 0 <= y < h ->
      img_get im x y 0 = Ok (XFin (img x y) : XR) /\
      exists b, img_get im' x y 0 = Ok b /\ (b = true <-> (Rmargin <= img x y / 255)%R).
Proof.
  intros g w h img Hw Hh Hsz.
  destruct (C43_image_is_flipped g w h (fun x y => XFin (img x y) : XR) Hw Hh Hsz) as [g' [E [Hg [_ [_ [_ [Hc _]]]]]]].
  destruct (C72_plots_show_the_grid XR g' w h Hw Hh Hsz Hg) as [[im' [E' [_ [_ [_ P']]]]] [[im [E1 [_ [_ [_ P]]]]] _]].
  exists g', im, im'. split; [exact E|]. split; [exact E1|]. split; [exact E'|]. intros x y Hx Hy.
  destruct (Hc x y Hx Hy) as [c [Hc1 [Hc2 _]]].
  assert (Eo : c_occ c = (XFin (img x y / 255) : XR)).
  { rewrite Hc2. change (xdiv (XFin (img x y)) (XFin 255) = XFin (img x y / 255)). cbn. unfold Reqb. destruct (Req_EM_T 255 0); [lra|reflexivity]. }
  split.
  - destruct (P x y 0 Hx Hy ltac:(lia)) as [c1 [H1 H2]]. assert (c1 = c) by congruence. subst c1. rewrite H2, Eo.
    change (Ok (XFin (img x y / 255 * 255) : XR) = Ok (XFin (img x y) : XR)).
    assert (Ef : (img x y / 255 * 255 = img x y)%R) by field. rewrite Ef. reflexivity.
  - destruct (P' x y 0 Hx Hy ltac:(lia)) as [c1 [H1 H2]]. assert (c1 = c) by congruence. subst c1.
    exists (negb (isOccupied c)). split; [exact H2|]. unfold isOccupied. rewrite Eo.
    pose proof xr_margin as Em. rewrite Em. change (negb (Rltb (img x y / 255) Rmargin) = true <-> (Rmargin <= img x y / 255)%R).
    unfold Rltb. destruct (Rlt_dec (img x y / 255) Rmargin); cbn; split; intros; try lra; try discriminate; auto. 
Qed.
Print Assumptions C72_plotting_a_loaded_image.

(** In exact arithmetic, after a computation that gave every cell a time >= 0 or left it
    infinite, and some cell a positive one: a reached cell has a shade between 0 and 255, the
    last one reached has 255, and a cell that was not reached is infinitely bright. *)
Lemma maxValue_shade (l : list (cell XR)) : forall m : R, (0 <= m)%R ->
  (forall c, In c l -> c_val c = XPInf \/ exists r, c_val c = XFin r /\ (0 <= r)%R) ->
  exists M, fold_left (fun m c => if negb (nisinf (c_val c)) && nltb m (c_val c) then c_val c else m) l (XFin m : XR) = XFin M /\ (m <= M)%R /\
    forall c r, In c l -> c_val c = XFin r -> (r <= M)%R.
Proof.
  induction l as [|c l IH]; intros m Hm Hl; cbn [fold_left].
  - exists m. split; [reflexivity|]. split; [lra|]. intros c r [].
  - destruct (Hl c (or_introl eq_refl)) as [Ev|[r [Ev Hr]]].
    + rewrite Ev. change (negb (nisinf (XPInf : XR)) && nltb (XFin m : XR) XPInf) with false. cbv iota.
      destruct (IH m Hm (fun c' H => Hl c' (or_intror H))) as [M [E [A B]]]. exists M. split; [exact E|]. split; [exact A|].
      intros c' r' [<-|H] E'; [congruence|eauto].
    + rewrite Ev. change (negb (nisinf (XFin r : XR)) && nltb (XFin m : XR) (XFin r)) with (Rltb m r). unfold Rltb. destruct (Rlt_dec m r) as [L|L].
      * destruct (IH r Hr (fun c' H => Hl c' (or_intror H))) as [M [E [A B]]]. exists M. split; [exact E|]. split; [lra|].
        intros c' r' [<-|H] E'; [assert (r' = r) by congruence; subst; exact A|eauto].
      * destruct (IH m Hm (fun c' H => Hl c' (or_intror H))) as [M [E [A B]]]. exists M. split; [exact E|]. split; [exact A|].
        intros c' r' [<-|H] E'; [assert (r' = r) by congruence; subst; lra|eauto].
Qed.

Theorem C72_shades_of_arrival_times :
  forall (g : grid XR) w h, 1 <= w -> 1 <= h -> w * h < 2147483648 -> grid_ok [w; h] g -> times_ok g ->
  (exists i t, times g i = Some t /\ (0 < t)%R) ->
  exists im, plotArrivalTimes g = Ok im /\
  forall x y, 0 <= x < w -> 0 <= y < h ->
    match times g (cell_number [w; h] [x; h - 1 - y]) with
    | None => img_get im x y 0 = Ok (XPInf : XR)
    | Some t => exists s, img_get im x y 0 = Ok (XFin s : XR) /\ (0 <= s <= 255)%R /\
                  ((forall i t', times g i = Some t' -> (t' <= t)%R) -> s = 255%R) /\
                  (forall x' y' t' s', 0 <= x' < w -> 0 <= y' < h -> times g (cell_number [w; h] [x'; h - 1 - y']) = Some t' ->
                     img_get im x' y' 0 = Ok (XFin s' : XR) -> (s <= s' <-> t <= t')%R)
    end.
Proof.
  intros g w h Hw Hh Hsz Hg Hok [i0 [t0 [Ht0 Hpos]]].
  destruct (C72_plots_show_the_grid XR g w h Hw Hh Hsz Hg) as [_ [_ [[im [E1 [_ [_ [_ P]]]]] _]]].
  exists im. split; [exact E1|].
  assert (Hcells : forall c, In c (g_cells g) -> c_val c = XPInf \/ exists r, c_val c = XFin r /\ (0 <= r)%R).
  { intros c Hc. apply In_nth_error in Hc. destruct Hc as [n Hn]. apply (Hok (Z.of_nat n) c). apply vget_ok. split; [lia|]. rewrite Nat2Z.id. exact Hn. }
  destruct (maxValue_shade (g_cells g) 0 ltac:(lra) Hcells) as [M [EM [_ BM]]]. change (getMaxValue g = XFin M) in EM.
  assert (Tm : forall i t, times g i = Some t -> exists c, getCell g i = Ok c /\ c_val c = (XFin t : XR) /\ (0 <= t <= M)%R).
  { intros i t H. unfold times, getArrivalTime in H. destruct (getCell g i) as [c|] eqn:Ec; cbn [bind] in H; [|discriminate].
    exists c. split; [reflexivity|]. destruct (Hok i c Ec) as [Ev|[r [Ev Hr]]]; rewrite Ev in H; cbn in H; [discriminate|].
    assert (r = t) by congruence. subst r. split; [exact Ev|]. split; [exact Hr|]. apply (BM c t); [|exact Ev].
    apply vget_ok in Ec. destruct Ec as [_ Ec]. apply nth_error_In in Ec. exact Ec. }
  assert (HM : (0 < M)%R) by (destruct (Tm i0 t0 Ht0) as [c [_ [_ H]]]; lra).
  assert (Sh : forall t, nmul (ndiv (XFin t : XR) (XFin M)) (nofZ 255) = (XFin (t / M * 255) : XR)).
  { intros t. change (xmul (xdiv (XFin t) (XFin M)) (XFin 255) = XFin (t / M * 255)). cbn. unfold Reqb. destruct (Req_EM_T M 0); [lra|reflexivity]. }
  assert (Pix : forall x y t, 0 <= x < w -> 0 <= y < h -> times g (cell_number [w; h] [x; h - 1 - y]) = Some t ->
    img_get im x y 0 = Ok (XFin (t / M * 255) : XR)).
  { intros x y t Hx Hy Ht. destruct (P x y 0 Hx Hy ltac:(lia)) as [c [Hc Hi]]. rewrite Hi.
    destruct (Tm _ _ Ht) as [c' [Hc' [Ev _]]]. assert (c' = c) by congruence. subst c'. rewrite EM, Ev, Sh. reflexivity. }
  intros x y Hx Hy. destruct (times g (cell_number [w; h] [x; h - 1 - y])) as [t|] eqn:Et.
  - destruct (Tm _ _ Et) as [c [_ [_ Ht]]]. exists (t / M * 255)%R. split; [exact (Pix x y t Hx Hy Et)|].
    assert (Hq : (0 <= t / M <= 1)%R).
    { split; [apply Rmult_le_pos; [lra|]; left; apply Rinv_0_lt_compat; exact HM|]. apply (Rmult_le_reg_r M); [exact HM|]. unfold Rdiv. rewrite Rmult_assoc, Rinv_l by lra. lra. }
    split; [lra|]. split.
    + intros Hall. assert (M = t); [|subst M; field; lra].
      assert (HMle : (M <= t)%R); [|lra].
      assert (Hsome : exists i, times g i = Some M).
      { destruct (getMaxValue_spec XR_laws g) as [Hs _]. rewrite EM in Hs.
        destruct Hs as [Hs|[_ [c' [Hc' [_ Es]]]]].
        - exfalso. assert (Em0 : M = 0%R) by (change ((XFin M : XR) = XFin 0) in Hs; congruence). lra.
        - apply In_nth_error in Hc'. destruct Hc' as [n Hn]. exists (Z.of_nat n). unfold times, getArrivalTime.
          assert (Eg : getCell g (Z.of_nat n) = Ok c') by (apply vget_ok; split; [lia|rewrite Nat2Z.id; exact Hn]).
          rewrite Eg. cbn [bind]. rewrite Es. reflexivity. }
      destruct Hsome as [i Hi]. apply (Hall i M Hi).
    + intros x' y' t' s' Hx' Hy' Et' Es'. rewrite (Pix x' y' t' Hx' Hy' Et') in Es'. assert (s' = t' / M * 255)%R by congruence. subst s'.
      assert (HMi : (0 < / M)%R) by (apply Rinv_0_lt_compat; exact HM). unfold Rdiv. split; intros L.
      * apply (Rmult_le_reg_r (/ M)); [exact HMi|]. lra.
      * pose proof (Rmult_le_compat_r (/ M) _ _ (Rlt_le _ _ HMi) L). lra.
  - destruct (P x y 0 Hx Hy ltac:(lia)) as [c [Hc Hi]]. rewrite Hi, EM.
    unfold times, getArrivalTime in Et. rewrite Hc in Et. cbn [bind] in Et.
    destruct (Hok _ c Hc) as [Ev|[r [Ev Hr]]]; rewrite Ev in Et |- *; [|discriminate].
    change (Ok (xmul (xdiv XPInf (XFin M)) (XFin 255) : XR) = Ok (XPInf : XR)). unfold xdiv, Rltb.
    destruct (Rlt_dec M 0); [lra|]. unfold xmul, xinf_of_sign, Rltb. destruct (Rlt_dec 0 255); [reflexivity|lra].
Qed.
Print Assumptions C72_shades_of_arrival_times.

(** ** C73 *)
Section Draw.
Context {N : Num}.

Lemma pixel_of h (p : list N) a b : falls_on p a b -> 0 <= a < 4294967296 -> 0 <= b < h -> h <= 4294967296 -> path_pixel h p = Ok (a, h - 1 - b).
Proof.
  intros [u [v [-> [Ha Hb]]]] Ra Rb Hh. unfold path_pixel. change (vget [u; v] 0) with (Ok u). change (vget [u; v] 1) with (Ok v). cbn [bind]. unfold to_unsigned. rewrite Ha.
  destruct (Z.leb_spec 0 a); [|lia]. destruct (Z.ltb_spec a 4294967296); [|lia]. cbn [andb bind]. rewrite Hb.
  destruct (Z.leb_spec 0 b); [|lia]. destruct (Z.ltb_spec b 4294967296); [|lia]. cbn [andb bind].
  rewrite u32_small by lia. do 2 f_equal. lia.
Qed.

Lemma falls_unique (p : list N) a b a' b' : falls_on p a b -> falls_on p a' b' -> a = a' /\ b = b'.
Proof. intros [u [v [-> [A B]]]] [u' [v' [E [A' B']]]]. injection E as <- <-. split; congruence. Qed.

Lemma draw_channels x y (v : N) cs : forall im, img_ok im -> (forall k, In k cs -> in_img im x y k) ->
  exists im', foldM (fun im c => img_set im x y c v) cs im = Ok im' /\ img_ok im' /\ same_size im im' /\
    forall x' y' k', in_img im x' y' k' ->
      (x' = x /\ y' = y /\ In k' cs -> img_get im' x' y' k' = Ok v) /\
      (~ (x' = x /\ y' = y /\ In k' cs) -> img_get im' x' y' k' = img_get im x' y' k').
Proof.
  induction cs as [|c cs IH]; intros im HI Hc; cbn [foldM].
  - exists im. split; [reflexivity|]. split; [exact HI|]. split; [repeat split|]. intros x' y' k' _. split; [intros [_ [_ []]]|reflexivity].
  - destruct (img_set_spec im x y c v HI (Hc c (or_introl eq_refl))) as [im1 [E1 [O1 [S1 G1]]]]. rewrite E1. cbn [bind].
    destruct (IH im1 O1) as [im2 [E2 [O2 [S2 G2]]]].
    + intros k Hk. apply (same_in im im1); [exact S1|]. apply Hc. right; exact Hk.
    + exists im2. split; [exact E2|]. split; [exact O2|]. split; [eapply same_trans; eassumption|].
      intros x' y' k' Hk. destruct (G2 x' y' k' (proj1 (same_in im im1 x' y' k' S1) Hk)) as [A B]. specialize (G1 x' y' k' Hk).
      destruct (in_dec Z.eq_dec k' cs) as [J|J].
      * destruct (Z.eq_dec x' x) as [Ex|Ex], (Z.eq_dec y' y) as [Ey|Ey]; split; intros K; try tauto;
          try (rewrite B by tauto; rewrite G1; destruct (Z.eqb_spec x' x); [|reflexivity]; destruct (Z.eqb_spec y' y); [|reflexivity]; contradiction).
        exfalso; apply K. cbn [In]. tauto.
      * rewrite B by tauto. rewrite G1. split.
        -- intros [-> [-> [->|K]]]; [|contradiction]. rewrite !Z.eqb_refl. reflexivity.
        -- intros K. destruct (Z.eqb_spec x' x) as [E3|]; [|reflexivity]. destruct (Z.eqb_spec y' y) as [E4|]; [|reflexivity].
           destruct (Z.eqb_spec k' c) as [E5|]; [|reflexivity]. exfalso; apply K. cbn [In]. auto.
Qed.

Definition on_path (h : Z) (path : list (list N)) (x y : Z) : Prop := exists p, In p path /\ falls_on p x (h - 1 - y).

Lemma draw_spec (v : N) cs path : forall im, img_ok im -> im_w im <= 4294967296 -> im_h im <= 4294967296 ->
  (forall k, In k cs -> 0 <= k < im_c im) -> Forall (inside (im_w im) (im_h im)) path ->
  exists im', draw_path cs v path im = Ok im' /\ img_ok im' /\ same_size im im' /\
    forall x y k, in_img im x y k ->
      (on_path (im_h im) path x y /\ In k cs -> img_get im' x y k = Ok v) /\
      (~ (on_path (im_h im) path x y /\ In k cs) -> img_get im' x y k = img_get im x y k).
Proof.
  unfold draw_path. induction path as [|p path IH]; intros im HI Hw Hh Hc Hp; cbn [foldM].
  - exists im. split; [reflexivity|]. split; [exact HI|]. split; [repeat split|]. intros x y k _. split; [intros [[p [[] _]] _]|reflexivity].
  - inversion Hp as [|? ? [a [b [Hf [Ra Rb]]]] Hp']; subst.
    rewrite (pixel_of (im_h im) p a b Hf ltac:(lia) Rb Hh). cbn [bind].
    destruct (draw_channels a (im_h im - 1 - b) v cs im HI) as [im1 [E1 [O1 [S1 G1]]]].
    { intros k Hk. repeat split; try lia; apply Hc; exact Hk. }
    rewrite E1. cbn [bind]. pose proof S1 as [S1a [S1b S1c]].
    destruct (IH im1 O1) as [im2 [E2 [O2 [S2 G2]]]]; [lia|lia|rewrite <- S1c; exact Hc|rewrite <- S1a, <- S1b; exact Hp'|].
    exists im2. split; [exact E2|]. split; [exact O2|]. split; [eapply same_trans; eassumption|].
    intros x y k Hk. destruct (G2 x y k (proj1 (same_in im im1 x y k S1) Hk)) as [A B]. destruct (G1 x y k Hk) as [C D].
    rewrite <- S1b in A, B.
    assert (Split : on_path (im_h im) (p :: path) x y <-> (x = a /\ y = im_h im - 1 - b) \/ on_path (im_h im) path x y).
    { split.
      - intros [q [[<-|Hq] Hq']]; [left|right; exists q; auto]. destruct (falls_unique _ _ _ _ _ Hf Hq'). lia.
      - intros [[-> ->]|[q [Hq Hq']]]; [exists p; split; [left; reflexivity|]|exists q; split; [right; exact Hq|exact Hq']].
        replace (im_h im - 1 - (im_h im - 1 - b)) with b by lia. exact Hf. }
    assert (Dec : on_path (im_h im) path x y \/ ~ on_path (im_h im) path x y).
    { clear - Hp'. induction path as [|q path IHp]; [right; intros [q [[] _]]|]. inversion Hp' as [|? ? [a [b [Hq _]]] Hr]; subst.
      destruct (IHp Hr) as [[r [Hr1 Hr2]]|Hn]; [left; exists r; split; [right; exact Hr1|exact Hr2]|].
      destruct (Z.eq_dec a x) as [Ea|Ea]; [|right; intros [r [[<-|Hr1] Hr2]]; [destruct (falls_unique _ _ _ _ _ Hq Hr2); congruence|apply Hn; exists r; auto]].
      destruct (Z.eq_dec b (im_h im - 1 - y)) as [Eb|Eb]; [left; exists q; split; [left; reflexivity|congruence]|].
      right; intros [r [[<-|Hr1] Hr2]]; [destruct (falls_unique _ _ _ _ _ Hq Hr2); congruence|apply Hn; exists r; auto]. }
    destruct (in_dec Z.eq_dec k cs) as [J|J]; [|split; [tauto|intros _; rewrite B by tauto; apply D; tauto]].
    destruct Dec as [Dy|Dn]; [split; [intros _; apply A; auto|intros K; exfalso; apply K; rewrite Split; auto]|].
    rewrite B by tauto. split.
    + intros [K _]. apply Split in K. destruct K as [[-> ->]|K]; [apply C; auto|contradiction].
    + intros K. apply D. intros [-> [-> _]]. apply K. rewrite Split. auto.
Qed.
End Draw.

(** A path inside the grid is drawn exactly on the cells its points fall in - those pixels
    turn red (channels 1 and 2 to zero) - and everything else still shows the map. *)
Theorem C73_a_path_is_drawn_on_its_cells :
  forall (N : Num) (g : grid N) w h path, 1 <= w -> 1 <= h -> w * h < 2147483648 -> grid_ok [w; h] g ->
  Forall (inside w h) path ->
  exists im, plotMapPath g path = Ok im /\ im_w im = w /\ im_h im = h /\ im_c im = 3 /\
  forall x y k, 0 <= x < w -> 0 <= y < h -> 0 <= k < 3 ->
    exists c, getCell g (cell_number [w; h] [x; h - 1 - y]) = Ok c /\
    ((exists p, In p path /\ falls_on p x (h - 1 - y)) /\ 1 <= k -> img_get im x y k = Ok (n0 : N)) /\
    (~ ((exists p, In p path /\ falls_on p x (h - 1 - y)) /\ 1 <= k) ->
       img_get im x y k = Ok ((if isOccupied c then n0 else nofZ 255) : N)).
Proof.
  intros N g w h path Hw Hh Hsz Hg Hp. unfold plotMapPath. rewrite (plot_dims g w h Hw Hh Hsz Hg). cbn [bind].
  destruct (fill_picture g w h Hw Hh Hsz Hg (fun c => (if isOccupied c then n0 else nofZ 255) : N) n0 3 ltac:(lia)) as [im [E [O [P1 [P2 [P3 P4]]]]]].
  unfold map_image. rewrite E. cbn [bind].
  destruct (draw_spec n0 [1; 2] path im O) as [im' [E' [O' [[S1 [S2 S3]] G]]]]; [nia|nia|intros k [<-|[<-|[]]]; lia|rewrite P1, P2; exact Hp|].
  exists im'. split; [exact E'|]. split; [lia|]. split; [lia|]. split; [lia|].
  intros x y k Hx Hy Hk. destruct (P4 x y k Hx Hy Hk) as [c [Hc Hi]]. exists c. split; [exact Hc|].
  destruct (G x y k) as [A B]; [repeat split; lia|]. rewrite P2 in A, B. unfold on_path in A, B. split.
  - intros [K1 K2]. apply A. split; [exact K1|]. cbn [In]. lia.
  - intros K. rewrite B; [exact Hi|]. intros [K1 K2]. apply K. split; [exact K1|]. cbn [In] in K2. lia.
Qed.
Print Assumptions C73_a_path_is_drawn_on_its_cells.

(** the same over the occupancy map and over the arrival times *)
Theorem C73_other_path_plots :
  forall (N : Num) (g : grid N) w h path, 1 <= w -> 1 <= h -> w * h < 2147483648 -> grid_ok [w; h] g ->
  Forall (inside w h) path ->
  (exists im, plotOccupancyPath g path = Ok im /\ im_w im = w /\ im_h im = h /\ im_c im = 3 /\
   forall x y k, 0 <= x < w -> 0 <= y < h -> 0 <= k < 3 ->
    exists c, getCell g (cell_number [w; h] [x; h - 1 - y]) = Ok c /\
    ((exists p, In p path /\ falls_on p x (h - 1 - y)) /\ 1 <= k -> img_get im x y k = Ok (n0 : N)) /\
    (~ ((exists p, In p path /\ falls_on p x (h - 1 - y)) /\ 1 <= k) -> img_get im x y k = Ok (nmul (c_occ c) (nofZ 255)))) /\
  (exists im, plotArrivalTimesPath g path = Ok im /\ im_w im = w /\ im_h im = h /\ im_c im = 1 /\
   forall x y, 0 <= x < w -> 0 <= y < h ->
    exists c, getCell g (cell_number [w; h] [x; h - 1 - y]) = Ok c /\
    ((exists p, In p path /\ falls_on p x (h - 1 - y)) -> img_get im x y 0 = Ok (nofZ 255 : N)) /\
    (~ (exists p, In p path /\ falls_on p x (h - 1 - y)) -> img_get im x y 0 = Ok (nmul (ndiv (c_val c) (getMaxValue g)) (nofZ 255)))).
Proof.
  intros N g w h path Hw Hh Hsz Hg Hp. split.
  - unfold plotOccupancyPath. rewrite (plot_dims g w h Hw Hh Hsz Hg). cbn [bind].
    destruct (fill_picture g w h Hw Hh Hsz Hg (fun c => nmul (c_occ c) (nofZ 255)) n0 3 ltac:(lia)) as [im [E [O [P1 [P2 [P3 P4]]]]]].
    rewrite E. cbn [bind].
    destruct (draw_spec n0 [1; 2] path im O) as [im' [E' [O' [[S1 [S2 S3]] G]]]]; [nia|nia|intros k [<-|[<-|[]]]; lia|rewrite P1, P2; exact Hp|].
    exists im'. split; [exact E'|]. split; [lia|]. split; [lia|]. split; [lia|].
    intros x y k Hx Hy Hk. destruct (P4 x y k Hx Hy Hk) as [c [Hc Hi]]. exists c. split; [exact Hc|].
    destruct (G x y k) as [A B]; [repeat split; lia|]. rewrite P2 in A, B. unfold on_path in A, B. split.
    + intros [K1 K2]. apply A. split; [exact K1|]. cbn [In]. lia.
    + intros K. rewrite B; [exact Hi|]. intros [K1 K2]. apply K. split; [exact K1|]. cbn [In] in K2. lia.
  - unfold plotArrivalTimesPath, plotArrivalTimes. rewrite (plot_dims g w h Hw Hh Hsz Hg). cbn [bind].
    destruct (fill_picture g w h Hw Hh Hsz Hg (fun c => nmul (ndiv (c_val c) (getMaxValue g)) (nofZ 255)) n0 1 ltac:(lia)) as [im [E [O [P1 [P2 [P3 P4]]]]]].
    rewrite E. cbn [bind].
    destruct (draw_spec (nofZ 255) [0] path im O) as [im' [E' [O' [[S1 [S2 S3]] G]]]]; [nia|nia|intros k [<-|[]]; lia|rewrite P1, P2; exact Hp|].
    exists im'. split; [exact E'|]. split; [lia|]. split; [lia|]. split; [lia|].
    intros x y Hx Hy. destruct (P4 x y 0 Hx Hy ltac:(lia)) as [c [Hc Hi]]. exists c. split; [exact Hc|].
    destruct (G x y 0) as [A B]; [repeat split; lia|]. rewrite P2 in A, B. unfold on_path in A, B. split.
    + intros K1. apply A. split; [exact K1|]. cbn [In]. lia.
    + intros K. rewrite B; [exact Hi|]. intros [K1 _]. apply K, K1.
Qed.

(** Two paths get different colours: the first loses channels 0 and 1, the second 1 and 2.
    With a third path that has a point, the plot writes outside the image. *)
Theorem C73_at_most_two_paths :
  forall (N : Num) (g : grid N) w h, 1 <= w -> 1 <= h -> w * h < 2147483648 -> grid_ok [w; h] g ->
  (forall a b, Forall (inside w h) a -> Forall (inside w h) b ->
     exists im, plotMapPaths g [a; b] = Ok im /\ im_w im = w /\ im_h im = h /\ im_c im = 3 /\
     forall x y k, 0 <= x < w -> 0 <= y < h -> 0 <= k < 3 ->
       exists c, getCell g (cell_number [w; h] [x; h - 1 - y]) = Ok c /\
       (((exists p, In p a /\ falls_on p x (h - 1 - y)) /\ k <= 1) \/ ((exists p, In p b /\ falls_on p x (h - 1 - y)) /\ 1 <= k) ->
          img_get im x y k = Ok (n0 : N)) /\
       (~ (((exists p, In p a /\ falls_on p x (h - 1 - y)) /\ k <= 1) \/ ((exists p, In p b /\ falls_on p x (h - 1 - y)) /\ 1 <= k)) ->
          img_get im x y k = Ok ((if isOccupied c then n0 else nofZ 255) : N))) /\
  (forall a b p c r, Forall (inside w h) a -> Forall (inside w h) b -> inside w h p ->
     plotMapPaths g (a :: b :: (p :: c) :: r) = Fail UB).
Proof.
  intros N g w h Hw Hh Hsz Hg.
  destruct (fill_picture g w h Hw Hh Hsz Hg (fun c => (if isOccupied c then n0 else nofZ 255) : N) n0 3 ltac:(lia)) as [im [E [O [P1 [P2 [P3 P4]]]]]].
  assert (Two : forall a b, Forall (inside w h) a -> Forall (inside w h) b ->
    exists im1 im2, draw_path [0; 0 + 1] n0 a im = Ok im1 /\ draw_path [0 + 1; 0 + 1 + 1] n0 b im1 = Ok im2 /\ img_ok im2 /\ same_size im im2 /\
    forall x y k, in_img im x y k ->
      ((on_path h a x y /\ k <= 1) \/ (on_path h b x y /\ 1 <= k) -> img_get im2 x y k = Ok (n0 : N)) /\
      (~ ((on_path h a x y /\ k <= 1) \/ (on_path h b x y /\ 1 <= k)) -> img_get im2 x y k = img_get im x y k)).
  { intros a b Ha Hb.
    destruct (draw_spec n0 [0; 0 + 1] a im O) as [im1 [E1 [O1 [S1 G1]]]]; [nia|nia|intros k [<-|[<-|[]]]; lia|rewrite P1, P2; exact Ha|].
    pose proof S1 as [S1a [S1b S1c]].
    destruct (draw_spec n0 [0 + 1; 0 + 1 + 1] b im1 O1) as [im2 [E2 [O2 [S2 G2]]]]; [nia|nia|intros k [<-|[<-|[]]]; lia|rewrite <- S1a, <- S1b, P1, P2; exact Hb|].
    exists im1, im2. split; [exact E1|]. split; [exact E2|]. split; [exact O2|]. split; [eapply same_trans; eassumption|].
    intros x y k Hk. destruct (G1 x y k Hk) as [A B]. destruct (G2 x y k (proj1 (same_in im im1 x y k S1) Hk)) as [C D].
    rewrite P2 in A, B. rewrite <- S1b, P2 in C, D. cbn [In] in *. destruct Hk as [_ [_ Hk]]. rewrite P3 in Hk.
    assert (Ek : k = 0 \/ k = 1 \/ k = 2) by lia.
    assert (DecB : on_path h b x y \/ ~ on_path h b x y).
    { clear - Hb. induction b as [|q b IHp]; [right; intros [q [[] _]]|]. inversion Hb as [|? ? [u [v [Hq _]]] Hr]; subst.
      destruct (IHp Hr) as [[r [Hr1 Hr2]]|Hn]; [left; exists r; split; [right; exact Hr1|exact Hr2]|].
      destruct (Z.eq_dec u x) as [Ea|Ea]; [|right; intros [r [[<-|Hr1] Hr2]]; [destruct (falls_unique _ _ _ _ _ Hq Hr2); congruence|apply Hn; exists r; auto]].
      destruct (Z.eq_dec v (h - 1 - y)) as [Eb|Eb]; [left; exists q; split; [left; reflexivity|congruence]|].
      right; intros [r [[<-|Hr1] Hr2]]; [destruct (falls_unique _ _ _ _ _ Hq Hr2); congruence|apply Hn; exists r; auto]. }
    split.
    - intros [[Ka Kk]|[Kb Kk]].
      + destruct DecB as [Db|Db].
        * destruct Ek as [->|Ek]; [rewrite D by lia; apply A; split; [exact Ka|lia]|]. apply C. split; [exact Db|lia].
        * rewrite D by tauto. apply A. split; [exact Ka|lia].
      + apply C. split; [exact Kb|lia].
    - intros K. rewrite D; [apply B|]; intros [K1 K2]; apply K; [left|right]; (split; [exact K1|lia]). }
  unfold plotMapPaths. rewrite (plot_dims g w h Hw Hh Hsz Hg). cbn [bind]. unfold map_image. rewrite E. cbn [bind]. split.
  - intros a b Ha Hb. destruct (Two a b Ha Hb) as [im1 [im2 [E1 [E2 [O2 [[S1 [S2 S3]] G]]]]]].
    exists im2. cbn [draw_paths]. rewrite E1. cbn [bind]. rewrite E2. cbn [bind]. split; [reflexivity|]. split; [lia|]. split; [lia|]. split; [lia|].
    intros x y k Hx Hy Hk. destruct (P4 x y k Hx Hy Hk) as [c [Hc Hi]]. exists c. split; [exact Hc|].
    destruct (G x y k) as [A B]; [repeat split; lia|]. split; [exact A|]. intros K. rewrite B by exact K. exact Hi.
  - intros a b p c r Ha Hb [u [v [Hf [Ru Rv]]]]. destruct (Two a b Ha Hb) as [im1 [im2 [E1 [E2 [O2 [[S1 [S2 S3]] G]]]]]].
    cbn [draw_paths]. rewrite E1. cbn [bind]. rewrite E2. cbn [bind]. unfold draw_path. cbn [foldM].
    rewrite (pixel_of (im_h im2) p u v Hf ltac:(nia) ltac:(lia) ltac:(nia)). cbn [bind foldM].
    destruct (img_set_spec im2 u (im_h im2 - 1 - v) (0 + 1 + 1) n0 O2) as [im3 [E3 [O3 [[T1 [T2 T3]] _]]]]; [repeat split; lia|].
    rewrite E3. cbn [bind]. unfold img_set, vset.
    assert (Hout : Z.of_nat (length (im_data im3)) <= img_offset im3 u (im_h im2 - 1 - v) (0 + 1 + 1 + 1)).
    { destruct O3 as [_ [_ [_ ->]]]. unfold img_offset. rewrite <- T1, <- T2, <- T3, <- S1, <- S2, <- S3, P1, P2, P3. nia. }
    destruct (Z.leb_spec 0 (img_offset im3 u (im_h im2 - 1 - v) (0 + 1 + 1 + 1))); [|reflexivity].
    destruct (Z.ltb_spec (img_offset im3 u (im_h im2 - 1 - v) (0 + 1 + 1 + 1)) (Z.of_nat (length (im_data im3)))); [lia|]. reflexivity.
Qed.
Print Assumptions C73_at_most_two_paths.

(** A point above or below the grid (the integer part of its y is not a row) is undefined
    behaviour; a point to the right of the grid, which is not checked either, is drawn one
    row further down the picture. *)
Theorem C73_points_outside_the_grid :
  forall (N : Num) (g : grid N) w h path (p : list N) rest a b, 1 <= w -> 1 <= h -> w * h < 2147483648 -> grid_ok [w; h] g ->
  Forall (inside w h) path -> falls_on p a b ->
  (~ 0 <= b < h -> plotMapPath g (path ++ p :: rest) = Fail UB) /\
  (forall q a', a = w + a' -> 0 <= a' < w -> 1 <= b < h -> falls_on q a' (b - 1) ->
     plotMapPath g (path ++ p :: rest) = plotMapPath g (path ++ q :: rest)).
Proof.
  intros N g w h path p rest a b Hw Hh Hsz Hg Hp Hf. unfold plotMapPath. rewrite (plot_dims g w h Hw Hh Hsz Hg). cbn [bind].
  destruct (fill_picture g w h Hw Hh Hsz Hg (fun c => (if isOccupied c then n0 else nofZ 255) : N) n0 3 ltac:(lia)) as [im [E [O [P1 [P2 [P3 P4]]]]]].
  unfold map_image. rewrite E. cbn [bind].
  destruct (draw_spec n0 [1; 2] path im O) as [im' [E' [O' [[S1 [S2 S3]] _]]]]; [nia|nia|intros k [<-|[<-|[]]]; lia|rewrite P1, P2; exact Hp|].
  assert (App : forall l, draw_path [1; 2] n0 (path ++ l) im = draw_path [1; 2] n0 l im').
  { intros l. unfold draw_path in *. rewrite foldM_app, E'. reflexivity. }
  rewrite App. split.
  - intros Hb. unfold draw_path. cbn [foldM]. destruct Hf as [u [v [-> [Ha Hv]]]]. unfold path_pixel.
    change (vget [u; v] 0) with (Ok u). change (vget [u; v] 1) with (Ok v). cbn [bind]. unfold to_unsigned. rewrite Ha.
    destruct (Z.leb_spec 0 a); [|reflexivity]. destruct (Z.ltb_spec a 4294967296); [|reflexivity]. cbn [andb bind]. rewrite Hv.
    destruct (Z.leb_spec 0 b); [|reflexivity]. destruct (Z.ltb_spec b 4294967296); [|reflexivity]. cbn [andb bind foldM].
    assert (Ey : u32 (im_h im' - b - 1) = 4294967296 + (h - b - 1)).
    { unfold u32. rewrite <- S2, P2. symmetry. apply (Z.mod_unique _ _ (-1)); [left|]; nia. }
    rewrite Ey. unfold img_set at 1. unfold vset at 1.
    destruct ((0 <=? img_offset im' a (4294967296 + (h - b - 1)) 1) && (img_offset im' a (4294967296 + (h - b - 1)) 1 <? Z.of_nat (length (im_data im')))); [|reflexivity].
    cbn [bind]. unfold img_set. unfold vset. cbn [im_data]. rewrite length_lset.
    set (d := lset (im_data im') (Z.to_nat (img_offset im' a (4294967296 + (h - b - 1)) 1)) n0).
    assert (Hout : Z.of_nat (length (im_data im')) <= img_offset (mkImg (im_w im') (im_h im') (im_c im') d) a (4294967296 + (h - b - 1)) 2).
    { destruct O' as [_ [_ [_ ->]]]. unfold img_offset. cbn [im_w im_h]. rewrite <- S1, <- S2, <- S3, P1, P2, P3.
      assert (h * w <= (4294967296 + (h - b - 1)) * w) by (apply Z.mul_le_mono_nonneg_r; lia). lia. }
    destruct (Z.leb_spec 0 (img_offset (mkImg (im_w im') (im_h im') (im_c im') d) a (4294967296 + (h - b - 1)) 2)); [|reflexivity].
    destruct (Z.ltb_spec (img_offset (mkImg (im_w im') (im_h im') (im_c im') d) a (4294967296 + (h - b - 1)) 2) (Z.of_nat (length (im_data im')))); [lia|reflexivity].
  - intros q a' -> Ra Rb Hq. rewrite App. unfold draw_path. cbn [foldM].
    assert (W1 : w <= 2147483647) by nia. assert (W2 : h <= 2147483647) by nia.
    rewrite (pixel_of (im_h im') p (w + a') b Hf ltac:(lia) ltac:(lia) ltac:(lia)).
    rewrite (pixel_of (im_h im') q a' (b - 1) Hq ltac:(lia) ltac:(lia) ltac:(lia)). cbn [bind].
    assert (Set_eq : forall (j : image N) k v, im_w j = w -> img_set j (w + a') (im_h im' - 1 - b) k v = img_set j a' (im_h im' - 1 - (b - 1)) k v).
    { intros j k v Ej. unfold img_set. replace (img_offset j (w + a') (im_h im' - 1 - b) k) with (img_offset j a' (im_h im' - 1 - (b - 1)) k); [reflexivity|].
      unfold img_offset. rewrite Ej. ring. }
    cbn [foldM]. rewrite (Set_eq im' 1 n0) by lia.
    destruct (img_set im' a' (im_h im' - 1 - (b - 1)) 1 n0) as [j|] eqn:Ej; cbn [bind]; [|reflexivity].
    rewrite (Set_eq j 2 n0); [reflexivity|]. unfold img_set in Ej. apply bind_ok in Ej. destruct Ej as [dd [_ Ej]]. injection Ej as <-. cbn [im_w]. lia.
Qed.
Print Assumptions C73_points_outside_the_grid.

(** Every path computed by the gradient descent over a map with a border of obstacles (exact
    arithmetic) can be plotted on that map. *)
Theorem C73_computed_paths_can_be_plotted :
  forall (g : grid XR) w h s cs0 fuel idx path vel, shape_ok [w; h] -> w * h < 2147483648 -> grid_ok [w; h] g ->
  times_ok g -> walled [w; h] (times g) -> (0 < s <= 1)%R -> interior [w; h] cs0 ->
  gd_apply fuel g (cell_number [w; h] cs0) [] [] (XFin s : XR) = Ok (idx, path, vel) ->
  Forall (inside w h) path /\ exists im, plotMapPath g path = Ok im.
Proof.
  intros g w h s cs0 fuel idx path vel Hsh Hsz Hg Hok Hw Hs Hi H.
  assert (Hd : 2 <= w /\ 2 <= h).
  { destruct Hsh as [H2 _]. inversion H2 as [|? ? A B]; subst. inversion B; subst. lia. }
  assert (Hin : Forall (inside w h) path).
  { destruct (C42_walled_descent [w; h] g s cs0 fuel [] [] Hsh ltac:(cbn; lia) Hg Hok Hw Hs Hi) as [A|[[A _]|[A _]]]; [|congruence|congruence].
    destruct A as [pts [cells [vs [cs' [_ [A2 [_ [A4 [A5 [_ A7]]]]]]]]]]. rewrite A7 in H. injection H as <- <- <-. cbn [app].
    assert (Tr : forall x c, (IZR c - 1 / 2 <= x < IZR c + 1 / 2)%R -> 1 <= c -> exists a, ntrunc (XFin x : XR) = Some a /\ c - 1 <= a <= c).
    { intros x c Hx Hc. apply IZR_le in Hc.
      assert (Ex : ntrunc (XFin x : XR) = Some (Rfloor x)).
      { change (Some (if Rltb x 0 then - Rfloor (- x) else Rfloor x) = Some (Rfloor x)). unfold Rltb. destruct (Rlt_dec x 0); [lra|reflexivity]. }
      exists (Rfloor x). split; [exact Ex|]. pose proof (Rfloor_spec x) as [F1 F2].
      split; [apply Z.lt_succ_r|apply Z.lt_succ_r]; apply lt_IZR; rewrite succ_IZR, ?minus_IZR; lra. }
    assert (One : forall p cs, nearest p cs -> interior [w; h] cs -> inside w h (map XFin p : list XR)).
    { intros p cs Hn Hc. unfold interior in Hc. inversion Hc as [|? c1 ? ? C1 C2]; subst. inversion C2 as [|? c2 ? ? C3 C4]; subst. inversion C4; subst.
      unfold nearest in Hn. inversion Hn as [|x1 ? ? ? N1 N2]; subst. inversion N2 as [|x2 ? ? ? N3 N4]; subst. inversion N4; subst.
      destruct (Tr x1 c1 N1 ltac:(lia)) as [a [Ea Ra]]. destruct (Tr x2 c2 N3 ltac:(lia)) as [b [Eb Rb]].
      exists a, b. split; [|lia]. exists (XFin x1), (XFin x2). auto. }
    rewrite map_app. apply Forall_app. split.
    - clear - One A4 A5. revert A4. induction A5 as [|p cs pts cells Hn Hr IH]; intros A4; cbn [map]; [constructor|].
      inversion A4; subst. constructor; [eapply One; eassumption|auto].
    - constructor; [|constructor]. apply (One _ cs').
      + unfold nearest. clear. induction cs'; cbn; constructor; [lra|assumption].
      + rewrite <- A2. destruct cells as [|c0 cells]; [exact Hi|]. rewrite Forall_forall in A4. apply A4.
        destruct (exists_last (l := c0 :: cells) ltac:(discriminate)) as [l' [x Ex]]. rewrite Ex, last_last. apply in_or_app. right; left; reflexivity. }
  split; [exact Hin|]. destruct (C73_a_path_is_drawn_on_its_cells XR g w h path ltac:(lia) ltac:(lia) Hsz Hg Hin) as [im [E _]]. eauto.
Qed.
Print Assumptions C73_computed_paths_can_be_plotted.

(** ** C74 *)
(** A click: the button is down and the pointer is in the window, at column x and row y *)
Definition click_at (w h : Z) (e : mouse) (x y : Z) : Prop :=
  m_button e = true /\ m_x e = x /\ m_y e = y /\ 0 <= x < w /\ 0 <= y < h.
(** an event the selection does not react to: no button, or outside the window, or in the
    leftmost column *)
Definition ignored (w h : Z) (e : mouse) : Prop :=
  m_button e = false \/ (m_x e = -1 /\ m_y e = -1) \/ (m_x e = 0 /\ 0 <= m_y e < h).

Lemma wait_ignored w h flip pre : forall evs, Forall (ignored w h) pre -> wait_click h flip (pre ++ evs) = wait_click h flip evs.
Proof.
  induction pre as [|e pre IH]; intros evs H; cbn [app wait_click]; [reflexivity|]. inversion H as [|? ? He Hr]; subst.
  destruct He as [Eb|[[Ex Ey]|[Ex Ey]]].
  - rewrite Eb. cbn [andb]. auto.
  - rewrite Ey. rewrite andb_false_r. auto.
  - rewrite Ex. destruct (m_button e && (0 <=? m_y e)); [|auto]. change (u32 0 =? 0) with true. cbv iota. auto.
Qed.

Lemma wait_click_at w h flip e x y evs : w <= 2147483648 -> h <= 2147483648 -> click_at w h e x y -> x <> 0 ->
  wait_click h flip (e :: evs) = Ok (x, (if flip then h - 1 - y else y), evs).
Proof.
  intros Hw Hh [Eb [Ex [Ey [Rx Ry]]]] Hne. cbn [wait_click]. rewrite Eb, Ex, Ey.
  destruct (Z.leb_spec 0 y); [|lia]. cbn [andb]. rewrite (u32_small x) by lia. destruct (Z.eqb_spec x 0); [lia|].
  destruct flip; rewrite u32_small by lia; reflexivity.
Qed.

(** The two points returned are the cells shown under the first two clicks that are not in the
    leftmost column: the picture's pixel there shows the occupancy of that very cell.  Until
    two such clicks come, the call does not return - a cell of column 0 can never be chosen. *)
Theorem C74_selected_points :
  forall (N : Num) (g : grid N) w h flip, 1 <= w -> 1 <= h -> w * h < 2147483648 -> grid_ok [w; h] g ->
  (forall pre e1 mid e2 rest x1 y1 x2 y2, Forall (ignored w h) pre -> Forall (ignored w h) mid ->
     click_at w h e1 x1 y1 -> x1 <> 0 -> click_at w h e2 x2 y2 -> x2 <> 0 ->
     exists p q im, selectMapPoints g flip (pre ++ e1 :: mid ++ e2 :: rest) = Ok (p, q) /\ select_image g flip = Ok im /\
       in_box [w; h] p /\ in_box [w; h] q /\
       (exists c, getCell g (cell_number [w; h] p) = Ok c /\ img_get im x1 y1 0 = Ok (if flip then nmul (c_occ c) (nofZ 255) else c_occ c)) /\
       (exists c, getCell g (cell_number [w; h] q) = Ok c /\ img_get im x2 y2 0 = Ok (if flip then nmul (c_occ c) (nofZ 255) else c_occ c))) /\
  (forall evs, Forall (ignored w h) evs -> selectMapPoints g flip evs = Fail OutOfFuel) /\
  (forall evs p q, Forall (fun e => m_x e = -1 /\ m_y e = -1 \/ 0 <= m_x e < w /\ 0 <= m_y e < h) evs ->
     selectMapPoints g flip evs = Ok (p, q) ->
     exists x1 y1 x2 y2, p = [x1; y1] /\ q = [x2; y2] /\ 0 < x1 < w /\ 0 < x2 < w /\ 0 <= y1 < h /\ 0 <= y2 < h).
Proof.
  intros N g w h flip Hw Hh Hsz Hg. pose proof (plot_dims g w h Hw Hh Hsz Hg) as Ed.
  assert (W1 : w <= 2147483647) by nia. assert (W2 : h <= 2147483647) by nia.
  assert (Him : exists im, select_image g flip = Ok im /\
    forall x y, 0 <= x < w -> 0 <= y < h -> exists c, getCell g (cell_number [w; h] [x; if flip then h - 1 - y else y]) = Ok c /\
      img_get im x y 0 = Ok (if flip then nmul (c_occ c) (nofZ 255) else c_occ c)).
  { unfold select_image. rewrite Ed. cbn [bind]. destruct flip.
    - destruct (fill_picture g w h Hw Hh Hsz Hg (fun c => nmul (c_occ c) (nofZ 255)) n0 1 ltac:(lia)) as [im [E [_ [_ [_ [_ P]]]]]].
      exists im. split; [exact E|]. intros x y Hx Hy. exact (P x y 0 Hx Hy ltac:(lia)).
    - set (d := fresh_cell 0 : cell N). set (cu := fun x y => match getCell g (w * y + x) with Ok c => c | _ => d end).
      assert (Hcell : forall x y, 0 <= x < w -> 0 <= y < h -> exists c, getCell g (w * y + x) = Ok c /\ 0 <= w * y + x < w * h).
      { intros x y Hx Hy. assert (R : 0 <= w * y + x < w * h) by nia. destruct (getCell_in [w; h] g (w * y + x) Hg) as [c Hc]; [cbn; nia|]. eauto. }
      destruct (fill_spec (fun x y => i <- (let i := w * y + x in if (-2147483648 <=? i) && (i <? 2147483648) then Ok (u32 i) else Fail UB) ;;
                            c <- getCell g i ;; Ok (c_occ c)) (fun x y => c_occ (cu x y)) w h 1 n0 ltac:(lia) ltac:(lia) ltac:(lia)) as [im [E [_ [_ [_ [_ G]]]]]].
      + intros x y Hx Hy. destruct (Hcell x y Hx Hy) as [c [Hc R]]. cbv zeta.
        destruct (Z.leb_spec (-2147483648) (w * y + x)); [|lia]. destruct (Z.ltb_spec (w * y + x) 2147483648); [|lia]. cbn [andb bind].
        rewrite u32_small by lia. unfold cu. rewrite Hc. reflexivity.
      + exists im. split; [exact E|]. intros x y Hx Hy. destruct (Hcell x y Hx Hy) as [c [Hc R]]. exists c.
        replace (cell_number [w; h] [x; y]) with (w * y + x) by (cbn [cell_number]; lia). split; [exact Hc|].
        rewrite (G x y 0 Hx Hy ltac:(lia)). unfold cu. rewrite Hc. reflexivity. }
  destruct Him as [im [Eim Pim]]. unfold selectMapPoints. rewrite Ed. cbn [bind]. split; [|split].
  - intros pre e1 mid e2 rest x1 y1 x2 y2 Hpre Hmid C1 N1 C2 N2. rewrite Eim. cbn [bind].
    rewrite (wait_ignored w h flip pre _ Hpre), (wait_click_at w h flip e1 x1 y1 _ ltac:(lia) ltac:(lia) C1 N1). cbn [bind].
    rewrite (wait_ignored w h flip mid _ Hmid), (wait_click_at w h flip e2 x2 y2 _ ltac:(lia) ltac:(lia) C2 N2). cbn [bind].
    destruct C1 as [_ [_ [_ [R1 R2]]]], C2 as [_ [_ [_ [R3 R4]]]].
    exists [x1; if flip then h - 1 - y1 else y1], [x2; if flip then h - 1 - y2 else y2], im. split; [reflexivity|]. split; [reflexivity|].
    split; [constructor; [lia|constructor; [destruct flip; lia|constructor]]|]. split; [constructor; [lia|constructor; [destruct flip; lia|constructor]]|].
    split; [exact (Pim x1 y1 R1 R2)|exact (Pim x2 y2 R3 R4)].
  - intros evs He. rewrite Eim. cbn [bind]. rewrite <- (app_nil_r evs), (wait_ignored w h flip evs [] He). reflexivity.
  - intros evs p q He H. rewrite Eim in H. cbn [bind] in H.
    assert (Wc : forall evs x y rest, Forall (fun e => m_x e = -1 /\ m_y e = -1 \/ 0 <= m_x e < w /\ 0 <= m_y e < h) evs ->
      wait_click h flip evs = Ok (x, y, rest) -> 0 < x < w /\ 0 <= y < h /\ Forall (fun e => m_x e = -1 /\ m_y e = -1 \/ 0 <= m_x e < w /\ 0 <= m_y e < h) rest).
    { clear - W1 W2. induction evs as [|e evs IH]; intros x y rest He H; [discriminate|]. inversion He as [|? ? H1 H2]; subst. cbn [wait_click] in H.
      destruct (m_button e); cbn [andb] in H; [|eauto].
      destruct H1 as [[E1 E2]|[R1 R2]]; [rewrite E2 in H; change (0 <=? -1) with false in H; cbv iota in H; eauto|].
      destruct (Z.leb_spec 0 (m_y e)); [|eauto]. rewrite (u32_small (m_x e)) in H by lia.
      destruct (Z.eqb_spec (m_x e) 0); [eauto|]. injection H as <- <- <-. split; [lia|]. split; [|exact H2].
      destruct flip; rewrite u32_small by lia; lia. }
    apply bind_ok in H. destruct H as [[[x y] r1] [H1 H]]. apply bind_ok in H. destruct H as [[[x' y'] r2] [H2 H]]. injection H as <- <-.
    destruct (Wc _ _ _ _ He H1) as [A [B C]]. destruct (Wc _ _ _ _ C H2) as [A' [B' _]]. exists x, y, x', y'. repeat split; lia.
Qed.
Print Assumptions C74_selected_points.

(** ** Cases *)
(** a 2x3 grid of doubles whose cell (0,2) is an obstacle: it is the top left pixel; a path
    from (0.5,0.9) to (1.0,1.2) colours the pixels (0,2) and (1,1) *)
Definition pg : res (grid F64) :=
  loadMapFromImg 2 3 (fun x y => if (x =? 0) && (y =? 0) then n0 else nofZ 255) (new_grid [1; 1] (n1 : F64)).
Definition pt (a b c d : Z) : list F64 := [ndiv (nofZ a) (nofZ b); ndiv (nofZ c) (nofZ d)].
Example C72_case :
  match pg with Ok g => match plotMap g with Ok im => forallb (fun p => eqb (fst p) (snd p)) (combine (im_data im) [false; true; true; true; true; true]) && (length (im_data im) =? 6)%nat | _ => false end | _ => false end = true.
Proof. vm_compute. reflexivity. Qed.
Example C73_case :
  match pg with
  | Ok g => match plotMapPath g [pt 1 2 9 10; pt 1 1 12 10], plotMapPaths g [[pt 1 2 9 10]; []; [pt 1 1 12 10]] with
            | Ok im, Fail UB => forallb (fun p => Bool.eqb (nltb (n0 : F64) (fst p)) (snd p)) (combine (im_data im)
                [false; true; true; true; true; true;  false; true; true; false; false; true;  false; true; true; false; false; true])
            | _, _ => false end
  | _ => false end = true.
Proof. vm_compute. reflexivity. Qed.
Example C74_case :
  match pg with
  | Ok g => match selectMapPoints g true [mkMouse false 1 1; mkMouse true (-1) (-1); mkMouse true 0 1; mkMouse true 1 0; mkMouse true 0 0; mkMouse true 1 2] with
            | Ok (p, q) => if list_eq_dec Z.eq_dec p [1; 2] then if list_eq_dec Z.eq_dec q [1; 0] then true else false else false
            | _ => false end
  | _ => false end = true.
Proof. vm_compute. reflexivity. Qed.

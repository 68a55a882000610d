(** XGrid.v - solveEikonal on exact grids, as a function of the time map. *)
From Coq Require Import Reals Lra.
From Verif Require Import Base BaseFacts Num NumXR NumLaws Grid GridFacts GridUpd GridMore Eikonal Spec Obs
  EikR EikX Solution.
Open Scope Z_scope.

Lemma dims2_proper dims : dims2 dims -> proper dims.
Proof. unfold dims2, proper; intros H. eapply Forall_impl; [|exact H]. cbn; intros; lia. Qed.

Lemma dims2_nth dims d : dims2 dims -> (d < length dims)%nat -> 2 <= nth d dims 1.
Proof. unfold dims2; intros H Hd. rewrite Forall_forall in H. apply H, nth_In, Hd. Qed.

Lemma times_get g i c : getCell g i = Ok c -> times g i = match c_val c with XFin r => Some r | _ => None end.
Proof. intros H. unfold times, getArrivalTime. rewrite H. reflexivity. Qed.

Lemma times_out dims g i : grid_ok dims g -> ~ (0 <= i < box_size dims) -> times g i = None.
Proof.
  intros [_ Hl] Hi. unfold times, getArrivalTime. destruct (getCell g i) as [c|e] eqn:E; [|reflexivity].
  apply getCell_range in E. lia.
Qed.

Lemma times_val g i c : times_ok g -> getCell g i = Ok c ->
  c_val c = match times g i with Some r => XFin r | None => XPInf end.
Proof.
  intros Hok Hc. rewrite (times_get g i c Hc). destruct (Hok i c Hc) as [->|[r [-> _]]]; reflexivity.
Qed.

Lemma times_nonneg g i r : times_ok g -> times g i = Some r -> (0 <= r)%R.
Proof.
  intros Hok. unfold times, getArrivalTime. destruct (getCell g i) as [c|e] eqn:E; cbn; [|discriminate].
  destruct (Hok i c E) as [->|[s [-> Hs]]]; [discriminate|]. intros H; injection H as <-; exact Hs.
Qed.

Lemma isOccupied_XR (c : cell XR) v : c_occ c = XFin v -> isOccupied c = Rltb v Rmargin.
Proof. intros H. unfold isOccupied. rewrite xr_margin, H. reflexivity. Qed.

Lemma free_vel g i c : reals_ok g -> getCell g i = Ok c -> isOccupied c = false ->
  exists v, c_occ c = XFin v /\ (0 < v)%R.
Proof.
  intros [_ Hv] Hc Ho. destruct (Hv i c Hc) as [v Ev]. exists v; split; [exact Ev|].
  rewrite (isOccupied_XR c v Ev) in Ho. apply Rltb_false in Ho. pose proof Rmargin_pos. lra.
Qed.

Lemma slow_pos g i : reals_ok g -> free g i -> (0 < slow g i)%R.
Proof.
  intros Hr [c [Hc Ho]]. destruct (free_vel g i c Hr Hc Ho) as [v [Ev Hv]].
  destruct Hr as [[h [Eh Hh]] _]. unfold slow. rewrite Eh, Hc, Ev. apply Rdiv_lt_0_compat; assumption.
Qed.

(** the values of an option, as an extended real *)
Definition ox (o : option R) : XR := match o with Some r => XFin r | None => XPInf end.

Lemma getMin_X dims (g : grid XR) i d :
  dims2 dims -> 2 * box_size dims <= 4294967296 -> grid_ok dims g -> times_ok g ->
  0 <= i < box_size dims -> (d < length dims)%nat ->
  getMinValueInDim g i d = Ok (ox (dmin dims (times g) i d)).
Proof.
  intros H2 Hlt Hg Hok Hi Hd. pose proof (dims2_proper _ H2) as Hp.
  destruct (min_in_dim XR_laws dims g (None, None) i d Hp Hlt Hg Hi Hd (dims2_nth _ _ H2 Hd))
    as [m [buf' [_ [Hm [[j [Hj1 Hj2]] Hall]]]]].
  rewrite Hm. f_equal.
  pose proof (dmin_spec dims (times g) i d Hp Hi Hd) as Hs.
  assert (Hval : forall k v, getArrivalTime g k = Ok v -> v = ox (times g k)).
  { intros k v Hk. unfold getArrivalTime in Hk. apply bind_ok in Hk. destruct Hk as [c [Hc Hv]].
    injection Hv as <-. exact (times_val g k c Hok Hc). }
  rewrite (Hval j m Hj2).
  destruct (times g j) as [r|] eqn:Ej.
  - assert (dmin dims (times g) i d = Some r) as ->; [|reflexivity].
    apply (dim_min_unique dims (times g) i d); [exact Hs|]. cbn. split; [exists j; auto|].
    intros k s Hk1 Hk2.
    pose proof (adjacent_range _ _ _ (adjacent_in_adjacent _ _ _ _ Hk1)) as [_ Hkr].
    destruct (getArrivalTime_in dims g k Hg Hkr) as [v Hv].
    specialize (Hall k v Hk1 Hv). rewrite (Hval j m Hj2), Ej in Hall.
    rewrite (Hval k v Hv), Hk2 in Hall. cbn in Hall. apply Rltb_false in Hall. exact Hall.
  - assert (dmin dims (times g) i d = None) as ->; [|reflexivity].
    apply (dim_min_unique dims (times g) i d); [exact Hs|]. cbn. intros k Hk1.
    pose proof (adjacent_range _ _ _ (adjacent_in_adjacent _ _ _ _ Hk1)) as [_ Hkr].
    destruct (getArrivalTime_in dims g k Hg Hkr) as [v Hv].
    specialize (Hall k v Hk1 Hv). rewrite (Hval j m Hj2), Ej in Hall.
    rewrite (Hval k v Hv) in Hall. destruct (times g k); [discriminate Hall|reflexivity].
Qed.

Lemma ox_test m own :
  negb (nisinf (ox m)) && nltb (ox m) (ox own) =
  match m with
  | None => false
  | Some a => match own with None => true | Some o => if Rlt_dec a o then true else false end
  end.
Proof. destruct m, own; reflexivity. Qed.

(** the upwind values solveEikonal collects *)
Definition upw (own : option R) (ms : list (option R)) : list R :=
  match own with None => somes ms | Some o => below o (somes ms) end.

Lemma upw_cons own m ms :
  upw own (m :: ms) =
  match m with
  | None => upw own ms
  | Some a => match own with
              | None => a :: upw own ms
              | Some o => if Rlt_dec a o then a :: upw own ms else upw own ms
              end
  end.
Proof.
  destruct m as [a|]; [|destruct own; reflexivity].
  unfold upw. change (somes (Some a :: ms)) with (a :: somes ms).
  destruct own as [o|]; [|reflexivity]. cbn [below filter]. destruct (Rlt_dec a o); reflexivity.
Qed.

Lemma collectT_X dims (g : grid XR) i :
  dims2 dims -> 2 * box_size dims <= 4294967296 -> grid_ok dims g -> times_ok g ->
  0 <= i < box_size dims ->
  collectT g i = Ok (map XFin (upw (times g i) (dmins dims (times g) i)) : list XR).
Proof.
  intros H2 Hlt Hg Hok Hi. unfold collectT.
  assert (Hd : s_dims (g_sh g) = dims).
  { destruct Hg as [-> _]. rewrite mk_shape_eq; [reflexivity|apply dims2_proper, H2|lia]. }
  rewrite Hd.
  destruct (getCell_in dims g i Hg Hi) as [c Hc].
  assert (Hown : getArrivalTime g i = Ok (ox (times g i))).
  { unfold getArrivalTime. rewrite Hc. cbn. f_equal. exact (times_val g i c Hok Hc). }
  unfold dmins. rewrite Hown.
  assert (Hl : forall l acc, (forall d, In d l -> (d < length dims)%nat) ->
    foldM (fun acc dim => m <- getMinValueInDim g i dim ;; own <- Ok (ox (times g i)) ;;
             if negb (nisinf m) && nltb m own then Ok (acc ++ [m]) else Ok acc) l acc
    = Ok (acc ++ (map XFin (upw (times g i) (map (dmin dims (times g) i) l)) : list XR))).
  { induction l as [|d l IH]; intros acc Hl.
    - cbn [foldM map]. f_equal. destruct (times g i); cbn; rewrite app_nil_r; reflexivity.
    - cbn [foldM map]. rewrite (getMin_X dims) by (auto; apply Hl; left; reflexivity).
      cbn [bind]. rewrite upw_cons.
      specialize (fun a => IH a ltac:(intros; apply Hl; right; assumption)).
      rewrite ox_test.
      destruct (dmin dims (times g) i d) as [a|].
      + destruct (times g i) as [o|] eqn:Eo.
        * destruct (Rlt_dec a o); cbn [bind]; rewrite IH; [|reflexivity].
          rewrite <- app_assoc. reflexivity.
        * cbn [bind]. rewrite IH. rewrite <- app_assoc. reflexivity.
      + cbn [bind]. rewrite IH. reflexivity. }
  rewrite Hl; [reflexivity|]. intros d Hin; apply in_seq in Hin; lia.
Qed.

(** result of solveEikonal as an optional time *)
Definition eik (dims : list Z) (f : R) (T : time_map) (i : Z) : option R :=
  match upw (T i) (dmins dims T i) with
  | [] => None
  | ts => Some (RF f Rmargin ts)
  end.

Lemma solveEikonal_X dims (g : grid XR) i :
  dims2 dims -> 2 * box_size dims <= 4294967296 -> grid_ok dims g -> times_ok g -> reals_ok g ->
  free g i -> 0 <= i < box_size dims ->
  solveEikonal g i = Ok (ox (eik dims (slow g i) (times g) i)).
Proof.
  intros H2 Hlt Hg Hok Hr [c [Hc Ho]] Hi. unfold solveEikonal.
  rewrite (collectT_X dims) by assumption. cbn [bind].
  destruct (free_vel g i c Hr Hc Ho) as [v [Ev Hv]]. destruct Hr as [[h [Eh Hh]] Hr].
  unfold eik, slow. rewrite Eh, Hc, Ev.
  destruct (upw (times g i) (dmins dims (times g) i)) as [|t ts] eqn:E; [reflexivity|].
  cbn [map]. change ((XFin t : XR) :: map XFin ts) with (map XFin (t :: ts) : list XR).
  cbn [bind]. rewrite Ev. rewrite solve_values_X by (auto; discriminate). reflexivity.
Qed.

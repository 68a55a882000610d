(** Prop_Grid.v - property theorems C01-C09 (grid indexing and grid state). *)
From Coq Require Import Reals.
From Verif Require Import Base BaseFacts Num NumXR NumF64 NumLaws Grid GridFacts GridMore Spec Obs.
Open Scope Z_scope.

(** C01: idx2coord and coord2idx are inverse bijections between 0..size-1 and
    the coordinate tuples of the box, and coord2idx is the cell number. *)
Theorem C01_index_coordinate_bijection :
  forall dims, (2 <= length dims)%nat -> proper dims -> box_size dims < 4294967296 ->
  (forall i, 0 <= i < box_size dims ->
     exists cs, idx2coord (mk_shape dims) i = Ok cs /\ in_box dims cs /\
                coord2idx (mk_shape dims) cs = Ok i) /\
  (forall cs, in_box dims cs ->
     exists i, coord2idx (mk_shape dims) cs = Ok i /\ i = cell_number dims cs /\
               0 <= i < box_size dims /\ idx2coord (mk_shape dims) i = Ok cs).
Proof. exact idx_coord_bijection. Qed.
Print Assumptions C01_index_coordinate_bijection.

Example C01_case : (2 <= length [5;4;3])%nat /\ proper [5;4;3] /\ box_size [5;4;3] < 4294967296 /\
  idx2coord (mk_shape [5;4;3]) 33 = Ok [3;2;1] /\ coord2idx (mk_shape [5;4;3]) [3;2;1] = Ok 33.
Proof. repeat split; vm_compute; try reflexivity; repeat constructor; discriminate. Qed.

(** With one dimension idx2coord reads d_[-1] (ndgridmap.hpp:201). *)
Theorem C01_one_dimension_undefined : forall k i, idx2coord (mk_shape [k]) i = Fail UB.
Proof. exact idx2coord_1d. Qed.
Print Assumptions C01_one_dimension_undefined.

(** C02: getNeighbors is exact. *)
Theorem C02_neighbours_exact :
  forall dims i, proper dims -> 2 * box_size dims <= 4294967296 -> 0 <= i < box_size dims ->
  exists ns, getNeighbors (mk_shape dims) i = Ok ns /\ NoDup ns /\
             (forall j, In j ns <-> adjacent dims i j) /\
             exists per_dim : list (list Z),
               ns = concat per_dim /\ length per_dim = length dims /\
               forall d l, nth_error per_dim d = Some l ->
                 forall j, In j l <-> adjacent_in dims d i j.
Proof. exact neighbours_exact. Qed.
Print Assumptions C02_neighbours_exact.

Example C02_case : proper [5;4] /\ 2 * box_size [5;4] <= 4294967296 /\
  getNeighbors (mk_shape [5;4]) 7 = Ok [6;8;2;12].
Proof. repeat split; vm_compute; try reflexivity; repeat constructor; discriminate. Qed.

(** C03: symmetric, irreflexive, at most 2*ndims entries. *)
Theorem C03_neighbourhood_symmetric :
  forall dims i j ni nj, proper dims -> 2 * box_size dims <= 4294967296 ->
  0 <= i < box_size dims -> 0 <= j < box_size dims ->
  getNeighbors (mk_shape dims) i = Ok ni -> getNeighbors (mk_shape dims) j = Ok nj ->
  (In j ni <-> In i nj) /\ ~ In i ni /\ (length ni <= 2 * length dims)%nat.
Proof. exact neighbours_symmetric. Qed.
Print Assumptions C03_neighbourhood_symmetric.

Example C03_case : getNeighbors (mk_shape [5;4]) 7 = Ok [6;8;2;12] /\
                   getNeighbors (mk_shape [5;4]) 12 = Ok [11;13;7;17].
Proof. split; reflexivity. Qed.

(** C04: the bound of C02 cannot be relaxed to size() < 2^32. *)
Theorem C04_neighbours_wrap_refuted :
  exists dims i j ns, proper dims /\ box_size dims < 4294967296 /\ 0 <= i < box_size dims /\
    0 <= j < box_size dims /\
    getNeighbors (mk_shape dims) i = Ok ns /\ In j ns /\ ~ adjacent dims i j.
Proof. exact neighbours_wrap. Qed.
Print Assumptions C04_neighbours_wrap_refuted.

(** C05: getMinValueInDim is the minimum over the neighbours in the dimension,
    whatever the scratch buffer held, if the dimension has size >= 2. *)
Theorem C05_min_value_in_dim :
  forall (N : Num) (L : NumLaws N) dims (g : grid N) buf i d,
  proper dims -> 2 * box_size dims <= 4294967296 -> grid_ok dims g ->
  0 <= i < box_size dims -> (d < length dims)%nat -> 2 <= nth d dims 1 ->
  exists m buf',
    getMinValueInDim_buf g buf i d = Ok (m, buf') /\
    getMinValueInDim g i d = Ok m /\
    (exists j, adjacent_in dims d i j /\ time_is g j m) /\
    (forall j v, adjacent_in dims d i j -> time_is g j v -> nltb v m = false).
Proof. exact @min_in_dim. Qed.
Print Assumptions C05_min_value_in_dim.

Example C05_case : exists (g : grid F64), grid_ok [5;4] g /\ proper [5;4] /\ 2 <= nth 1 [5;4] 1.
Proof. exists (new_grid [5;4] n1). repeat split; repeat constructor; discriminate. Qed.

(** C05 (size 1): the answer is read from the buffer, whatever the cell. *)
Theorem C05_flat_dimension_reads_buffer :
  forall (N : Num) dims (g : grid N) i d a b va vb,
  proper dims -> 2 * box_size dims <= 4294967296 -> grid_ok dims g ->
  0 <= i < box_size dims -> (d < length dims)%nat -> nth d dims 1 = 1 ->
  time_is g a va -> time_is g b vb ->
  getMinValueInDim_buf g (Some a, Some b) i d = Ok (if nltb va vb then va else vb, (Some a, Some b)).
Proof. exact @flat_dim_reads_buffer. Qed.
Print Assumptions C05_flat_dimension_reads_buffer.

(** C05 (size 1): two call histories, same grid, different answers. *)
Theorem C05_history_dependent_refuted :
  exists (g : grid F64) i d m1 m2 b1 b2 x1 x2 y1 y2,
    grid_ok [5;1] g /\
    getMinValueInDim_buf g (None, None) 1 0 = Ok (x1, b1) /\
    getMinValueInDim_buf g (None, None) 3 0 = Ok (x2, b2) /\
    getMinValueInDim_buf g b1 i d = Ok (m1, y1) /\
    getMinValueInDim_buf g b2 i d = Ok (m2, y2) /\
    nltb m1 m2 = true.
Proof. exact min_history_dependent. Qed.
Print Assumptions C05_history_dependent_refuted.

(** C06: resize establishes a fresh grid. *)
Theorem C06_resize_fresh :
  forall (N : Num) (L : NumLaws N) (g : grid N) dims,
  proper dims -> box_size dims < 4294967296 ->
  let g' := resize g dims in
  gsize g' = box_size dims /\ grid_ok dims g' /\ g_clean g' = true /\
  g_leaf g' = g_leaf g /\ g_obs g' = g_obs g /\
  (forall i, 0 <= i < box_size dims ->
     exists c, getCell g' i = Ok c /\ c_val c = ninf /\ c_state c = OPEN /\
               isOccupied c = false /\ c_h c = n0 /\ c_bucket c = 0 /\ c_idx c = i) /\
  (forall i, ~ (0 <= i < box_size dims) -> getCell g' i = Fail UB).
Proof. exact @resize_fresh. Qed.
Print Assumptions C06_resize_fresh.

Example C06_case : proper [5;4;3] /\ box_size [5;4;3] < 4294967296 /\
  gsize (resize (new_grid (N := F64) [2;2] n1) [5;4;3]) = 60.
Proof. repeat split; try reflexivity; repeat constructor; discriminate. Qed.

(** C06: 65536 x 65536 silently has size 0 and no accessible cell. *)
Theorem C06_resize_wraps_refuted :
  forall (N : Num) (g : grid N), proper [65536; 65536] /\ box_size [65536; 65536] = 4294967296 /\
  gsize (resize g [65536; 65536]) = 0 /\
  (forall i, getCell (resize g [65536; 65536]) i = Fail UB).
Proof. exact @resize_wraps'. Qed.
Print Assumptions C06_resize_wraps_refuted.

(** C07: clean(). *)
Theorem C07_clean :
  forall (N : Num) (g : grid N) i c,
  getCell g i = Ok c ->
  g_sh (clean g) = g_sh g /\ g_leaf (clean g) = g_leaf g /\ g_obs (clean g) = g_obs g /\
  length (g_cells (clean g)) = length (g_cells g) /\ g_clean (clean g) = true /\
  exists c', getCell (clean g) i = Ok c' /\ c_occ c' = c_occ c /\ c_idx c' = c_idx c /\
    (g_clean g = false -> c_val c' = ninf /\ c_state c' = OPEN /\ c_h c' = n0 /\ c_bucket c' = 0) /\
    (g_clean g = true -> c' = c).
Proof. exact @clean_spec. Qed.
Print Assumptions C07_clean.

Example C07_case : exists (g : grid F64) c, getCell g 3 = Ok c /\ g_clean g = false.
Proof. eexists (setClean (new_grid [5;4] n1) false), _. split; reflexivity. Qed.

(** C08: aggregates. *)
Theorem C08_max_value :
  forall (N : Num) (L : NumLaws N) (g : grid N),
  let m := getMaxValue g in
  (m = n0 \/ (nltb n0 m = true /\
              exists c, In c (g_cells g) /\ nisinf (c_val c) = false /\ c_val c = m)) /\
  (forall c, In c (g_cells g) -> nisinf (c_val c) = false -> nltb m (c_val c) = false).
Proof. exact @getMaxValue_spec. Qed.
Print Assumptions C08_max_value.

Theorem C08_max_speed :
  forall (N : Num) (L : NumLaws N) (g : grid N),
  let m := getMaxSpeed g in
  (m = n0 \/ (nltb n0 m = true /\ exists c, In c (g_cells g) /\ c_occ c = m)) /\
  (forall c, In c (g_cells g) -> nltb m (c_occ c) = false).
Proof. exact @getMaxSpeed_spec. Qed.
Print Assumptions C08_max_speed.

Theorem C08_avg_speed :
  forall dims (g : grid XR) (vel : cell XR -> R),
  proper dims -> box_size dims < 4294967296 -> grid_ok dims g ->
  (forall c, In c (g_cells g) -> c_occ c = XFin (vel c)) ->
  let free := filter (fun c => negb (isOccupied c)) (g_cells g) in
  getAvgSpeed g = if Nat.eqb (length free) 0 then XNaN
                  else XFin (Rsum (map vel free) / INR (length free)).
Proof. exact getAvgSpeed_spec. Qed.
Print Assumptions C08_avg_speed.

Example C08_case : exists g : grid XR, grid_ok [5;4] g /\ proper [5;4] /\ box_size [5;4] < 4294967296 /\
  forall c, In c (g_cells g) -> c_occ c = XFin 1.
Proof.
  exists (new_grid [5;4] n1). repeat split; try reflexivity; repeat constructor; try discriminate.
  intros c Hc. cbn in Hc. repeat (destruct Hc as [<-|Hc]; [reflexivity|]). destruct Hc.
Qed.

(** C09: clear() leaves size and neighbours, every access is out of bounds. *)
Theorem C09_clear_leaves_size :
  forall (N : Num) (g : grid N),
  gsize (gclear g) = gsize g /\ s_dims (g_sh (gclear g)) = s_dims (g_sh g) /\
  (forall i, getNeighbors (g_sh (gclear g)) i = getNeighbors (g_sh g) i) /\
  (forall i, getCell (gclear g) i = Fail UB) /\ g_obs (gclear g) = [].
Proof. exact @clear_spec. Qed.
Print Assumptions C09_clear_leaves_size.

Example C09_case : gsize (gclear (new_grid (N := F64) [5;4] n1)) = 20.
Proof. reflexivity. Qed.

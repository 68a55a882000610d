(** FM2Model.v - model of FM2 (fm2/fm2.hpp) and FM2* (fm2/fm2star.hpp).

    The inner solver and the outer one point to the same grid, so one grid is passed
    through.  Timing is not modelled. *)
From Verif Require Import Base Num Grid Eikonal FMMModel SolverModel.
Open Scope Z_scope.

Section FM2.
Context {N : Num} (HO : HeapOps N).

(** fm2.hpp:196-203: fm2_sources_, solver_, maxDistance_; fm2star.hpp:121 heurStrategy_
    (NOHEUR for plain FM2, which never uses it) *)
Record fm2_obj := mkFm2 {
  f2_s : solver; f2_sources : list Z; f2_inner : fmm_obj HO; f2_maxDist : N; f2_heur : HeurStrategy
}.

(** fm2.hpp:56-65 constructors; fm2star.hpp:60-66 *)
Definition fm2_new (maxDistance : N) : fm2_obj := mkFm2 new_solver [] (fmm_new HO NOHEUR) maxDistance NOHEUR.
Definition fm2star_new (h : HeurStrategy) (maxDistance : N) : fm2_obj := mkFm2 new_solver [] (fmm_new HO NOHEUR) maxDistance h.

(** fm2.hpp:69-75 setEnvironment *)
Definition fm2_setEnvironment (o : fm2_obj) (g : option (grid N)) : res (fm2_obj * grid N) :=
  '(s1, g1) <- setEnvironment (f2_s o) g ;;
  '(i1, g2) <- fmm_setEnvironment HO (f2_inner o) (Some g1) ;;
  Ok (mkFm2 s1 (g_obs g1) i1 (f2_maxDist o) (f2_heur o), g2).

(** inherited setInitialAndGoalPoints (solver.hpp:57-61) *)
Definition fm2_setPoints (o : fm2_obj) (init : list Z) (goal : Z) : fm2_obj :=
  mkFm2 (setInitialAndGoalPoints (f2_s o) init goal) (f2_sources o) (f2_inner o) (f2_maxDist o) (f2_heur o).

(** fmm.hpp:182-199 precomputeDistances as a method of the object: needs the grid (the
    writes to the reserved, not resized, vector are taken to reach it, as in
    [fmm_setHeuristics]) *)
Definition fmm_precompute (o : fmm_obj HO) (g : grid N) : res (fmm_obj HO) :=
  match sv_grid (fo_s o) with
  | GSet => d <- precomputeDistances (g_sh g) ;; Ok (mkFmm (fo_s o) (fo_band o) (fo_strat o) d true (fo_coord o))
  | _ => Fail UB
  end.

(** fm2star.hpp:68-73 *)
Definition fm2star_setPoints (o : fm2_obj) (g : grid N) (init : list Z) (goal : Z) : res fm2_obj :=
  let o1 := fm2_setPoints o init goal in
  i1 <- fmm_precompute (f2_inner o1) g ;;
  Ok (mkFm2 (f2_s o1) (f2_sources o1) i1 (f2_maxDist o1) (f2_heur o1)).

(** fm2.hpp:77-91 setup *)
Definition fm2_setup (o : fm2_obj) (g : grid N) : res (fm2_obj * grid N) :=
  '(s1, g1) <- solver_setup (f2_s o) g ;;
  if (1 <? Z.of_nat (length (sv_init s1)))%Z then Fail (Exit 1) else
  match f2_sources o with
  | [] => Fail (Exit 1)
  | _ => Ok (mkFm2 s1 (f2_sources o) (f2_inner o) (f2_maxDist o) (f2_heur o), g1)
  end.

(** fm2star.hpp:75-84 setup *)
Definition fm2star_setup (o : fm2_obj) (g : grid N) : res (fm2_obj * grid N) :=
  '(o1, g1) <- fm2_setup o g ;;
  k <- goal_of (f2_s o1) ;;
  if (s32 k =? -1)%Z then Fail (Exit 1) else Ok (o1, g1).

(** fm2.hpp:127-141: velocity of a cell with first-wave time [t] *)
Definition fm2_velocity (maxDist leaf maxValue t : N) : N :=
  let vel := ndiv t maxValue in
  if negb (neqb maxDist (nofZ (-1))) then
    let maxVelocity := ndiv maxDist leaf in
    if nltb vel maxVelocity then ndiv vel maxVelocity else n1
  else vel.

(** fm2.hpp:132-147: the loop body for one cell *)
Definition fm2_rescale (maxDist leaf maxValue : N) (c : cell N) : cell N :=
  with_state (with_val (with_occ c (fm2_velocity maxDist leaf maxValue (c_val c))) ninf) OPEN.

(** fm2.hpp:115-150 computeVelocitiesMap *)
Definition fm2_velocities (fuel : nat) (o : fm2_obj) (g : grid N) : res (fm2_obj * grid N) :=
  let i0 := fmm_setPoints HO (f2_inner o) (f2_sources o) (-1) in
  '(i1, g1) <- fmm_compute HO fuel i0 (setClean g true) ;;
  let m := getMaxValue g1 in
  let g2 := with_cells g1 (map (fm2_rescale (f2_maxDist o) (g_leaf g1) m) (g_cells g1)) in
  (* setClean(true) is inside the loop: not executed when there is no cell *)
  let g3 := match g_cells g1 with [] => g2 | _ => setClean g2 true end in
  Ok (mkFm2 (f2_s o) (f2_sources o) i1 (f2_maxDist o) (f2_heur o), g3).

(** fm2.hpp:93-113 and fm2star.hpp:86-107 computeInternal; [setup] and [heur] distinguish them *)
Definition fm2_internal (setup : fm2_obj -> grid N -> res (fm2_obj * grid N)) (star : bool)
    (fuel : nat) (o : fm2_obj) (g : grid N) : res (fm2_obj * grid N) :=
  '(o1, g1) <- (if sv_setup (f2_s o) then Ok (o, g) else setup o g) ;;
  '(o2, g2) <- fm2_velocities fuel o1 g1 ;;
  k <- goal_of (f2_s o2) ;;
  i <- vget (sv_init (f2_s o2)) 0 ;;
  let in1 := fmm_setPoints HO (f2_inner o2) [k] i in
  in2 <- (if star then fmm_setHeuristics HO in1 g2 (f2_heur o2) else Ok in1) ;;
  '(in3, g3) <- fmm_compute HO fuel in2 g2 ;;
  Ok (mkFm2 (f2_s o2) (f2_sources o2) in3 (f2_maxDist o2) (f2_heur o2), setClean g3 false).
Definition fm2_compute := fm2_internal fm2_setup false.
Definition fm2star_compute := fm2_internal fm2star_setup true.

(** fm2.hpp:175-179 reset *)
Definition fm2_reset (o : fm2_obj) (g : grid N) : res (fm2_obj * grid N) :=
  '(s1, g1) <- solver_reset (f2_s o) g ;;
  '(i1, g2) <- fmm_reset HO (f2_inner o) g1 ;;
  Ok (mkFm2 s1 (f2_sources o) i1 (f2_maxDist o) (f2_heur o), g2).

(** FM2 together with the state of the memory solver_ points to ([fm_alive] is false once it
    was deleted).  fm2.hpp:167-173 clear deletes it and keeps the pointer; the destructor
    (line 67) calls clear.  Methods that dereference solver_ are UB on a deleted one; compute
    dereferences it only after setup succeeded (lines 93-113). *)
Record fm2_mem := mkMem { fm_obj : fm2_obj; fm_alive : bool }.
Definition fm2_clear (m : fm2_mem) : res fm2_mem :=
  if fm_alive m
  then Ok (mkMem (mkFm2 (solver_clear (f2_s (fm_obj m))) [] (f2_inner (fm_obj m)) (nofZ (-1)) (f2_heur (fm_obj m))) false)
  else Fail UB.
Definition fm2_destroy : fm2_mem -> res fm2_mem := fm2_clear.
Definition fm2_mem_setPoints (m : fm2_mem) (init : list Z) (goal : Z) : fm2_mem :=
  mkMem (fm2_setPoints (fm_obj m) init goal) (fm_alive m).
Definition fm2_mem_setEnvironment (m : fm2_mem) (g : option (grid N)) : res (fm2_mem * grid N) :=
  if fm_alive m then '(o, g1) <- fm2_setEnvironment (fm_obj m) g ;; Ok (mkMem o true, g1) else Fail UB.
Definition fm2_mem_reset (m : fm2_mem) (g : grid N) : res (fm2_mem * grid N) :=
  if fm_alive m then '(o, g1) <- fm2_reset (fm_obj m) g ;; Ok (mkMem o true, g1) else Fail UB.
Definition fm2_mem_compute (fuel : nat) (m : fm2_mem) (g : grid N) : res (fm2_mem * grid N) :=
  '(o1, g1) <- (if sv_setup (f2_s (fm_obj m)) then Ok (fm_obj m, g) else fm2_setup (fm_obj m) g) ;;
  if fm_alive m then '(o2, g2) <- fm2_compute fuel o1 g1 ;; Ok (mkMem o2 true, g2) else Fail UB.
End FM2.
Arguments mkMem {N HO}. Arguments fm_obj {N HO}. Arguments fm_alive {N HO}.
Arguments mkFm2 {N HO}. Arguments f2_s {N HO}. Arguments f2_sources {N HO}. Arguments f2_inner {N HO}.
Arguments f2_maxDist {N HO}. Arguments f2_heur {N HO}.

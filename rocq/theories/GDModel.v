(** GDModel.v - model of gradientdescent/gradientdescent.hpp and FM2::computePath.

    [Path] is a vector of arrays of doubles, [Coord] an array of unsigned. *)
From Verif Require Import Base Num Grid FMMModel SolverModel FM2Model.
Open Scope Z_scope.

(** gradientdescent.hpp:74-77 read strictly: the array d_ has ndims-1 entries and entries
    0 .. ndims-1 are written *)
Definition gd_strides_strict (dims : list Z) : res (list Z) :=
  match dims with
  | [] => Fail UB
  | k0 :: _ =>
      d <- vset (repeat 0 (length dims - 1)) 0 k0 ;;
      foldM (fun d i => k <- vget dims i ;; p <- vget d (i - 1) ;; vset d i (u32 (k * p))) (map Z.of_nat (seq 1 (length dims - 1))) d
  end.

Section GD.
Context {N : Num}.

(** gradientdescent.hpp:36-39 sgn *)
Definition sgn (x : N) : N := nofZ ((if nltb n0 x then 1 else 0) - (if nltb x n0 then 1 else 0)).

(** lines 91-93 and 97-99: the component of the gradient along a dimension of stride [st] *)
Definition gd_component (g : grid N) (idx st : Z) : res N :=
  a <- getCell g (u32 (idx - st)) ;;
  b <- getCell g (u32 (idx + st)) ;;
  let x := nadd (ndiv (nopp (c_val a)) (nofZ 2)) (ndiv (c_val b) (nofZ 2)) in
  Ok (if nisinf x then sgn x else x).

(** lines 91-102: all components and max_grad.  The strides are 1 and d_[0..ndims-2]; the
    write of d_[ndims-1] beyond the array is taken to be harmless here
    (see [gd_strides_strict]). *)
Definition gd_gradient (g : grid N) (idx : Z) : res (list N * N) :=
  match s_dims (g_sh g) with
  | [] => Fail UB
  | _ =>
      x0 <- gd_component g idx 1 ;;
      foldM (fun '(xs, m) st => x <- gd_component g idx st ;;
               Ok (xs ++ [x], if nltb (nabs m) (nabs x) then x else m))
            (removelast (s_d (g_sh g))) ([x0], nabs x0)
  end.

(** line 108: int(x + 0.5), stored in an unsigned; UB if it does not fit an int *)
Definition gd_round (x : N) : res Z :=
  match ntrunc (nadd x (ndiv n1 (nofZ 2))) with
  | Some z => if (-2147483648 <=? z) && (z <=? 2147483647) then Ok (u32 z) else Fail UB
  | None => Fail UB
  end.

(** line 107: moving the point along one dimension *)
Definition gd_move (step m p x : N) : N := nsub p (ndiv (nmul step x) (nabs m)).

(** lines 85-113: the loop; [point] is current_point, path and velocities oldest first *)
Fixpoint gd_loop (fuel : nat) (g : grid N) (step : N) (point : list N) (idx : Z) (path : list (list N)) (vel : list N)
  : res (Z * list (list N) * list N) :=
  match fuel with
  | O => Fail OutOfFuel
  | S fuel =>
      t <- getArrivalTime g idx ;;
      if neqb t n0 then Ok (idx, path, vel) else
      '(xs, m) <- gd_gradient g idx ;;
      let point := map (fun px => gd_move step m (fst px) (snd px)) (combine point xs) in
      cs <- mapM gd_round point ;;
      c <- getCell g idx ;;
      idx <- coord2idx (g_sh g) cs ;;
      gd_loop fuel g step point idx (path ++ [point]) (vel ++ [c_occ c])
  end.

(** lines 66-119 apply: returns idx (passed by reference), path and velocities *)
Definition gd_apply (fuel : nat) (g : grid N) (idx : Z) (path : list (list N)) (vel : list N) (step : N)
  : res (Z * list (list N) * list N) :=
  cs <- idx2coord (g_sh g) idx ;;
  let point := map nofZ cs in
  c <- getCell g idx ;;
  '(idx, path, vel) <- gd_loop fuel g step point idx (path ++ [point]) (vel ++ [c_occ c]) ;;
  cs <- idx2coord (g_sh g) idx ;;
  c <- getCell g idx ;;
  Ok (idx, path ++ [map nofZ cs], vel ++ [c_occ c]).

(** fm2.hpp:152-165 computePath: init_points_[0] is passed by reference *)
Definition fm2_computePath {HO : HeapOps N} (fuel : nat) (o : fm2_obj HO) (g : grid N) (path : list (list N)) (vel : list N) (step : N)
  : res (fm2_obj HO * list (list N) * list N) :=
  match sv_init (f2_s o) with
  | [] => Fail UB
  | i :: r =>
      '(i', path, vel) <- gd_apply fuel g i path vel step ;;
      Ok (mkFm2 (mkSolver (sv_grid (f2_s o)) (sv_setup (f2_s o)) (i' :: r) (sv_goal (f2_s o))) (f2_sources o) (f2_inner o) (f2_maxDist o) (f2_heur o), path, vel)
  end.
End GD.

(** Eikonal.v - model of EikonalSolver (include/fast_methods/fm/eikonalsolver.hpp). *)
From Verif Require Import Base Num Grid.

Section Eikonal.
Context {N : Num}.
Local Open Scope num_scope.

(** std::sort on doubles (eikonalsolver.hpp:66).  The values are never NaN
    (they passed [minTInDim < ...]), so the sorted sequence is unique up to the
    sign of zeros; insertion sort is used. *)
Fixpoint insert_sorted (x : N) (l : list N) : list N :=
  match l with
  | [] => [x]
  | y :: r => if x <? y then x :: y :: r else y :: insert_sorted x r
  end.

Fixpoint isort (l : list N) : list N :=
  match l with [] => [] | x :: r => insert_sorted x (isort r) end.

(** eikonalsolver.hpp:80-105 solveEikonalNDims(idx, dim): [used] are
    Tvalues_[0..dim-1], [h] the leaf size, [v] the velocity of the cell. *)
Definition solveEikonalNDims (h v : N) (used : list N) : N :=
  match used with
  | [t] => t + h / v                                              (* line 84 *)
  | _ =>
    let sumT := fold_left (fun s t => s + t) used n0 in           (* 87-92 *)
    let sumTT := fold_left (fun s t => s + t * t) used n0 in
    let a := nofZ (Z.of_nat (length used)) in                     (* 96 *)
    let b := nofZ (-2)%Z * sumT in                                (* 97 *)
    let c := sumTT - h * h / (v * v) in                           (* 98 *)
    let quad := b * b - nofZ 4%Z * a * c in                       (* 99 *)
    if quad <? n0 then ninf                                       (* 101-102 *)
    else (nopp b + nsqrt quad) / (nofZ 2%Z * a)                   (* 104 *)
  end.

(** eikonalsolver.hpp:68-73: the loop over i; [used] = Tvalues_[0..i-1],
    [rest] = Tvalues_[i..a-1]. *)
Fixpoint solve_loop (h v : N) (used rest : list N) : N :=
  let u := solveEikonalNDims h v used in
  match rest with
  | [] => u                                                       (* i == a *)
  | t :: r => if (u - t) <? comp_margin then u
              else solve_loop h v (used ++ [t]) r
  end.

(** eikonalsolver.hpp:61-74, given the collected values. *)
Definition solve_values (h v : N) (ts : list N) : N :=
  match isort ts with
  | [] => ninf
  | t :: r => solve_loop h v [t] r
  end.

(** eikonalsolver.hpp:53-59: Tvalues_ in the order of dimensions. *)
Definition collectT (g : grid N) (idx : Z) : res (list N) :=
  foldM (fun acc dim =>
           m <- getMinValueInDim g idx dim ;;
           own <- getArrivalTime g idx ;;
           if negb (nisinf m) && (m <? own) then Ok (acc ++ [m]) else Ok acc)
        (seq 0 (length (s_dims (g_sh g)))) [].

(** eikonalsolver.hpp:48-75 solveEikonal *)
Definition solveEikonal (g : grid N) (idx : Z) : res N :=
  ts <- collectT g idx ;;
  match ts with
  | [] => Ok ninf
  | _ => c <- getCell g idx ;; Ok (solve_values (g_leaf g) (c_occ c) ts)
  end.

End Eikonal.

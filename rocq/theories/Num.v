(** Num.v - the arithmetic the solvers use, as a record of operations.

    C++ type [double].  Two instances are given in NumF64.v (IEEE binary64) and
    NumXR.v (exact extended reals). *)
From Verif Require Import Base.

Record Num := mkNum {
  num :> Type;
  nadd : num -> num -> num;           (* a + b *)
  nsub : num -> num -> num;           (* a - b *)
  nmul : num -> num -> num;           (* a * b *)
  ndiv : num -> num -> num;           (* a / b *)
  nopp : num -> num;                  (* -a *)
  nsqrt : num -> num;                 (* sqrt(a) *)
  nabs : num -> num;                  (* fabs(a) *)
  nltb : num -> num -> bool;          (* a < b   (false on NaN) *)
  nleb : num -> num -> bool;          (* a <= b  (false on NaN) *)
  neqb : num -> num -> bool;          (* a == b  (false on NaN) *)
  nisinf : num -> bool;               (* std::isinf(a) *)
  nisnan : num -> bool;               (* std::isnan(a) *)
  ninf : num;                         (* std::numeric_limits<double>::infinity() *)
  nofZ : Z -> num;                    (* integer converted to double *)
  nfloor : num -> option Z;           (* floor(a) as an integer; None if a is not finite *)
  ntrunc : num -> option Z            (* conversion double -> integer before range check *)
}.

Arguments nadd {n}. Arguments nsub {n}. Arguments nmul {n}. Arguments ndiv {n}.
Arguments nopp {n}. Arguments nsqrt {n}. Arguments nabs {n}.
Arguments nltb {n}. Arguments nleb {n}. Arguments neqb {n}.
Arguments nisinf {n}. Arguments nisnan {n}. Arguments ninf {n}.
Arguments nofZ {n}. Arguments nfloor {n}. Arguments ntrunc {n}.

Declare Scope num_scope.
Delimit Scope num_scope with num.
Infix "+" := nadd : num_scope.
Infix "-" := nsub : num_scope.
Infix "*" := nmul : num_scope.
Infix "/" := ndiv : num_scope.
Infix "<?" := nltb : num_scope.
Infix "<=?" := nleb : num_scope.
Infix "=?" := neqb : num_scope.

Section Utils.
Context {N : Num}.
Local Open Scope num_scope.

Definition n0 : N := nofZ 0%Z.
Definition n1 : N := nofZ 1%Z.

(** utils.h:27  COMP_MARGIN = numeric_limits<double>::epsilon() * 1e5
    = 2^-52 * 100000 (exact in binary64, so written as one division). *)
Definition comp_margin : N := nofZ 100000%Z / nofZ 4503599627370496%Z.

(** utils.h:31-34 isTimeBetterThan. *)
Definition isTimeBetterThan (t1 t2 : N) : bool := (t1 + comp_margin) <? t2.

End Utils.

(** utils.h:37-40 absUI: the argument is an [int] (an unsigned difference is
    converted), the result an unsigned; -INT_MIN is UB in C++. *)
Definition absUI (a : Z) : res Z :=
  let a := s32 a in
  if (0 <? a)%Z then Ok a
  else if (a =? -2147483648)%Z then Fail UB
  else Ok (- a)%Z.

(** NumF64.v - IEEE-754 binary64 instance of [Num] (strict evaluation, round to
    nearest even), from Flocq's computable BinarySingleNaN. *)
From Coq Require Import ZArith Bool.
From Flocq Require Import Core.Zaux IEEE754.BinarySingleNaN.
From Verif Require Import Base Num.

Definition prec64 : Z := 53.
Definition emax64 : Z := 1024.
Definition f64 : Type := binary_float prec64 emax64.

Definition Hprec64 : FLX.Prec_gt_0 prec64 := eq_refl.
Definition Hmax64 : Prec_lt_emax prec64 emax64 := eq_refl.
#[global] Existing Instance Hprec64.
#[global] Existing Instance Hmax64.

Definition f64_of_Z (z : Z) : f64 :=
  binary_normalize prec64 emax64 Hprec64 Hmax64 mode_NE z 0 false.

Definition f64_isinf (x : f64) : bool :=
  match x with B754_infinity _ => true | _ => false end.

Definition f64_isnan (x : f64) : bool :=
  match x with B754_nan => true | _ => false end.

(** floor of m * 2^e *)
Definition f64_floor (x : f64) : option Z :=
  match x with
  | B754_zero _ => Some 0
  | B754_finite s m e _ =>
      let z := cond_Zopp s (Zpos m) in
      Some (if 0 <=? e then z * 2 ^ e else z / 2 ^ (- e))
  | _ => None
  end.

(** truncation toward zero of m * 2^e *)
Definition f64_trunc (x : f64) : option Z :=
  match x with
  | B754_zero _ => Some 0
  | B754_finite s m e _ =>
      Some (cond_Zopp s (if 0 <=? e then Zpos m * 2 ^ e else Zpos m / 2 ^ (- e)))
  | _ => None
  end.

Definition F64 : Num := {|
  num := f64;
  nadd := Bplus mode_NE;
  nsub := Bminus mode_NE;
  nmul := Bmult mode_NE;
  ndiv := Bdiv mode_NE;
  nopp := Bopp;
  nsqrt := Bsqrt mode_NE;
  nabs := Babs;
  nltb := Bltb;
  nleb := Bleb;
  neqb := Beqb;
  nisinf := f64_isinf;
  nisnan := f64_isnan;
  ninf := B754_infinity false;
  nofZ := f64_of_Z;
  nfloor := f64_floor;
  ntrunc := f64_trunc
|}.

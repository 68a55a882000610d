(** NumXR.v - exact extended-real instance of [Num]: an idealisation of
    [double] without rounding, overflow or signed zero. *)
From Coq Require Import Reals ZArith Bool.
From Verif Require Import Base Num.

Inductive xr := XFin (r : R) | XPInf | XNInf | XNaN.

Definition Rltb (x y : R) : bool := if Rlt_dec x y then true else false.
Definition Rleb (x y : R) : bool := if Rle_dec x y then true else false.
Definition Reqb (x y : R) : bool := if Req_EM_T x y then true else false.

Definition xopp (a : xr) : xr :=
  match a with XFin x => XFin (- x) | XPInf => XNInf | XNInf => XPInf | XNaN => XNaN end.

Definition xadd (a b : xr) : xr :=
  match a, b with
  | XFin x, XFin y => XFin (x + y)
  | XNaN, _ | _, XNaN => XNaN
  | XPInf, XNInf | XNInf, XPInf => XNaN
  | XPInf, _ | _, XPInf => XPInf
  | XNInf, _ | _, XNInf => XNInf
  end.

Definition xsub (a b : xr) : xr := xadd a (xopp b).

(** sign of a real as an infinity; NaN for zero *)
Definition xinf_of_sign (x : R) : xr :=
  if Rltb 0 x then XPInf else if Rltb x 0 then XNInf else XNaN.

Definition xmul (a b : xr) : xr :=
  match a, b with
  | XFin x, XFin y => XFin (x * y)
  | XNaN, _ | _, XNaN => XNaN
  | XFin x, XPInf | XPInf, XFin x => xinf_of_sign x
  | XFin x, XNInf | XNInf, XFin x => xopp (xinf_of_sign x)
  | XPInf, XPInf | XNInf, XNInf => XPInf
  | XPInf, XNInf | XNInf, XPInf => XNInf
  end.

(** division; a zero divisor is +0 *)
Definition xdiv (a b : xr) : xr :=
  match a, b with
  | XNaN, _ | _, XNaN => XNaN
  | XFin x, XFin y => if Reqb y 0 then xinf_of_sign x else XFin (x / y)
  | XFin _, _ => XFin 0
  | XPInf, XFin y => if Rltb y 0 then XNInf else XPInf
  | XNInf, XFin y => if Rltb y 0 then XPInf else XNInf
  | _, _ => XNaN
  end.

Definition xsqrt (a : xr) : xr :=
  match a with
  | XFin x => if Rltb x 0 then XNaN else XFin (sqrt x)
  | XPInf => XPInf
  | _ => XNaN
  end.

Definition xabs (a : xr) : xr :=
  match a with XFin x => XFin (Rabs x) | XNaN => XNaN | _ => XPInf end.

Definition xltb (a b : xr) : bool :=
  match a, b with
  | XFin x, XFin y => Rltb x y
  | XNaN, _ | _, XNaN => false
  | XNInf, XNInf => false
  | XNInf, _ => true
  | _, XNInf => false
  | XPInf, _ => false
  | _, XPInf => true
  end.

Definition xleb (a b : xr) : bool :=
  match a, b with
  | XFin x, XFin y => Rleb x y
  | XNaN, _ | _, XNaN => false
  | XNInf, _ => true
  | _, XNInf => false
  | _, XPInf => true
  | XPInf, _ => false
  end.

Definition xeqb (a b : xr) : bool :=
  match a, b with
  | XFin x, XFin y => Reqb x y
  | XPInf, XPInf => true
  | XNInf, XNInf => true
  | _, _ => false
  end.

(** greatest integer not above x *)
Definition Rfloor (x : R) : Z := (up x - 1)%Z.

Definition XR : Num := {|
  num := xr;
  nadd := xadd;
  nsub := xsub;
  nmul := xmul;
  ndiv := xdiv;
  nopp := xopp;
  nsqrt := xsqrt;
  nabs := xabs;
  nltb := xltb;
  nleb := xleb;
  neqb := xeqb;
  nisinf := fun a => match a with XPInf | XNInf => true | _ => false end;
  nisnan := fun a => match a with XNaN => true | _ => false end;
  ninf := XPInf;
  nofZ := fun z => XFin (IZR z);
  nfloor := fun a => match a with XFin x => Some (Rfloor x) | _ => None end;
  ntrunc := fun a => match a with
                     | XFin x => Some (if Rltb x 0 then (- Rfloor (- x))%Z else Rfloor x)
                     | _ => None end
|}.

(** Base.v - outcomes of C++ code and small list helpers used by the model. *)
From Coq Require Export ZArith List Bool Lia.
Export ListNotations.
Open Scope Z_scope.

(** Why a piece of C++ code does not return normally.
    [UB]: undefined behaviour (out-of-range access, division by zero of
    integers, decrementing begin(), ...).  [Exit n]: exit(n) was called.
    [OutOfFuel]: artefact of the model, the loop bound given to a [while]
    loop was used up; termination theorems exclude it. *)
Inductive failure := UB | Exit (code : Z) | OutOfFuel.

Inductive res (A : Type) : Type :=
| Ok (a : A)
| Fail (f : failure).
Arguments Ok {A} a.
Arguments Fail {A} f.

Definition bind {A B} (x : res A) (k : A -> res B) : res B :=
  match x with Ok a => k a | Fail f => Fail f end.

Notation "x <- e ;; k" := (bind e (fun x => k))
  (at level 61, e at next level, right associativity).
Notation "' p <- e ;; k" := (bind e (fun x => match x with p => k end))
  (at level 61, p pattern, e at next level, right associativity).

(** A C++ [for] loop over a sequence whose body updates a state. *)
Fixpoint foldM {A S} (f : S -> A -> res S) (l : list A) (s : S) : res S :=
  match l with
  | [] => Ok s
  | x :: r => s' <- f s x ;; foldM f r s'
  end.

Fixpoint mapM {A B} (f : A -> res B) (l : list A) : res (list B) :=
  match l with
  | [] => Ok []
  | x :: r => y <- f x ;; ys <- mapM f r ;; Ok (y :: ys)
  end.

(** [v[i]] on std::vector / std::array with an unsigned index: out of range is UB. *)
Definition vget {A} (l : list A) (i : Z) : res A :=
  if (0 <=? i) then
    match nth_error l (Z.to_nat i) with Some x => Ok x | None => Fail UB end
  else Fail UB.

Fixpoint lset {A} (l : list A) (n : nat) (x : A) : list A :=
  match l, n with
  | [], _ => []
  | _ :: r, O => x :: r
  | y :: r, S k => y :: lset r k x
  end.

(** [v[i] = x]. *)
Definition vset {A} (l : list A) (i : Z) (x : A) : res (list A) :=
  if (0 <=? i) && (i <? Z.of_nat (length l)) then Ok (lset l (Z.to_nat i) x)
  else Fail UB.

(** Conversion of an integer to [unsigned int] (32 bits). *)
Definition u32 (z : Z) : Z := z mod 4294967296.

(** Conversion of an [unsigned int] to [int] (two's complement). *)
Definition s32 (z : Z) : Z :=
  let u := u32 z in if u <? 2147483648 then u else u - 4294967296.

(** [0; 1; ...; n-1] *)
Definition zseq (n : nat) : list Z := map Z.of_nat (seq 0 n).

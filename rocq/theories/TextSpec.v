(** TextSpec.v - specification vocabulary for the text handling properties. *)
From Coq Require Import Ascii String.
From Verif Require Import Base TextModel.
Open Scope Z_scope.
Open Scope list_scope.

(** The comma-separated fields of a string: the non-empty list of comma-free strings that
    gives the string back when joined with commas. *)
Fixpoint join (fs : list text) : text :=
  match fs with
  | [] => []
  | [a] => a
  | a :: r => a ++ comma :: join r
  end.
Definition fields (s : text) (fs : list text) : Prop :=
  fs <> [] /\ Forall (fun f => ~ In comma f) fs /\ s = join fs.

(** total number of characters *)
Fixpoint total (fs : list text) : Z :=
  match fs with [] => 0 | a :: r => Z.of_nat (List.length a) + total r end.

(** the first position >= 1 of a flag in argv *)
Definition first_at (argv : list text) (flag : text) (i : Z) : Prop :=
  1 <= i /\ nth_error argv (Z.to_nat i) = Some flag /\
  forall j, 1 <= j < i -> nth_error argv (Z.to_nat j) <> Some flag.
Definition nowhere (argv : list text) (flag : text) : Prop :=
  forall j, 1 <= j -> nth_error argv (Z.to_nat j) <> Some flag.

Definition dashed (t : text) : Prop := exists r, t = "-"%char :: r.
(** [l] is the longest prefix of [m] without dashed strings *)
Definition until_dash (l m : list text) : Prop :=
  Forall (fun t => ~ dashed t) l /\ exists r, m = l ++ r /\ (r = [] \/ exists t r', r = t :: r' /\ dashed t).

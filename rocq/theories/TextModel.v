(** TextModel.v - model of the string handling of the library: the console helpers
    (src/console/console.cpp) and the configuration reader (benchmark/benchmarkcfg.hpp).

    std::string is [list ascii]; [str "..."] writes one down. *)
From Coq Require Import Ascii String.
From Verif Require Import Base.
Open Scope Z_scope.
Open Scope list_scope.

Notation text := (list ascii).
Definition str (s : string) : text := list_ascii_of_string s.
Definition len (t : text) : Z := Z.of_nat (List.length t).

(** == on std::string, strcmp == 0 on C strings *)
Fixpoint text_eqb (a b : text) : bool :=
  match a, b with
  | [], [] => true
  | x :: a, y :: b => Ascii.eqb x y && text_eqb a b
  | _, _ => false
  end.

(** ** Console: argv is the list of its argc strings; argv[argc] is the null pointer,
    reading further is undefined. *)

(** console.cpp:33-41 findArguments: the loop from [i] on, [l] = argv[i..] *)
Fixpoint find_from (i : Z) (l : list text) (flag : text) : Z :=
  match l with
  | [] => -1
  | a :: r => if text_eqb a flag then i else find_from (i + 1) r flag
  end.
Definition findArguments (argv : list text) (flag : text) : Z :=
  match argv with [] => -1 | _ :: r => find_from 1 r flag end.

(** argv[i] as a string; dereferencing the null pointer argv[argc] is undefined as well *)
Definition argAt (argv : list text) (i : Z) : res text := vget argv i.

(** console.cpp:50-106 the seven scalar parsers (string, bool, double, float, int,
    unsigned, char): [conv] is what they do with argv[index]; the result is the returned
    index and the new value of val *)
Definition parseScalar {A} (conv : text -> A) (argv : list text) (flag : text) (val : A) : res (Z * A) :=
  let index := findArguments argv flag + 1 in
  if (0 <? index) && (index <? Z.of_nat (List.length argv))
  then a <- argAt argv index ;; Ok (index, conv a)
  else Ok (index, val).

(** console.cpp:111-145 the two vector parsers, do-while loop; the null terminator of an
    empty string is not '-' *)
Fixpoint vec_loop {A} (fuel : nat) (conv : text -> A) (argv : list text) (i : Z) (vals : list A) : res (list A) :=
  match fuel with
  | O => Fail OutOfFuel
  | S fuel =>
      aux <- argAt argv i ;;
      let dash := match aux with c :: _ => Ascii.eqb c "-"%char | [] => false end in
      let '(i, vals) := if dash then (Z.of_nat (List.length argv), vals) else (i + 1, vals ++ [conv aux]) in
      if i <? Z.of_nat (List.length argv) then vec_loop fuel conv argv i vals else Ok vals
  end.
Definition parseVector {A} (conv : text -> A) (argv : list text) (flag : text) (vals : list A) : res (Z * list A) :=
  let index := findArguments argv flag in
  v <- vec_loop (S (List.length argv)) conv argv (index + 1) vals ;; Ok (index, v).

(** ** std::getline on a std::stringstream *)

(** Unread characters and whether the stream is exhausted (eofbit). *)
Record sstream := mkSs { ss_rest : text; ss_eof : bool }.

(** the characters before the first delimiter and, if there is one, those behind it *)
Fixpoint cut (d : ascii) (t : text) : text * option text :=
  match t with
  | [] => ([], None)
  | c :: r => if Ascii.eqb c d then ([], Some r) else let '(a, b) := cut d r in (c :: a, b)
  end.

(** std::getline(ss, item, d): when the stream is exhausted item is left as it was
    (the string is only erased once the stream is known to be good) *)
Definition getline (d : ascii) (s : sstream) (item : text) : sstream * text :=
  if ss_eof s then (s, item) else
  match cut d (ss_rest s) with
  | (a, Some r) => (mkSs r false, a)
  | (a, None) => (mkSs [] true, a)
  end.

Definition comma : ascii := ","%char.

(** size_t arithmetic *)
Definition u64 (z : Z) : Z := z mod 18446744073709551616.

(** benchmarkcfg.hpp:336-348 split; the loop of lines 342-346 *)
Fixpoint split_loop (fuel : nat) (str_size pos : Z) (s : sstream) (item : text) (elems : list text) : res (list text) :=
  if pos <? str_size then
    match fuel with
    | O => Fail OutOfFuel
    | S fuel =>
        let '(s, item) := getline comma s item in
        split_loop fuel str_size (u64 (pos + len item)) s item (elems ++ [item])
    end
  else Ok elems.
Definition split (fuel : nat) (s : text) : res (list text) :=
  split_loop fuel (u64 (len s - 1)) 1 (mkSs s false) [] [].

(** benchmarkcfg.hpp:320-333 splitAndCast, [cast] = boost::lexical_cast; a throw ends the
    program (modelled as Exit 134, abort) *)
Definition abort : failure := Exit 134.
Fixpoint splitAndCast_loop {T} (cast : text -> option T) (n : nat) (s : sstream) (item : text) : res (list T) :=
  match n with
  | O => Ok []
  | S n =>
      let '(s, item) := getline comma s item in
      match cast item with
      | None => Fail abort
      | Some v => r <- splitAndCast_loop cast n s item ;; Ok (v :: r)
      end
  end.
Definition splitAndCast {T} (cast : text -> option T) (N : nat) (s : text) : res (list T) :=
  splitAndCast_loop cast N (mkSs s false) [].

(** ** BenchmarkCFG *)

(** benchmarkcfg.hpp:62-65 *)
Definition knownSolvers : list text := map str
  ["fmm"; "fmmstar"; "fmmfib"; "fmmfibstar"; "sfmm"; "sfmmstar";
   "gmm"; "fim"; "ufmm"; "fsm"; "lsm"; "ddqm"]%string.

(** boost::to_lower_copy (ASCII, "C" locale) *)
Definition to_lower (c : ascii) : ascii :=
  let n := nat_of_ascii c in
  if (Nat.leb 65 n && Nat.leb n 90)%bool then ascii_of_nat (n + 32) else c.

(** benchmarkcfg.hpp:104-122 : the unregistered options as (key, value) pairs in file
    order; result: solverNames_ and ctorParams_ together *)
Definition readSolvers (unr : list (text * text)) : list (text * text) :=
  flat_map (fun kv =>
    let key := map to_lower (fst kv) in
    if text_eqb (firstn 8 key) (str "solvers.")
    then let solver := skipn 8 key in
         map (fun k => (k, snd kv)) (filter (fun k => text_eqb solver k) knownSolvers)
    else []) unr.

(** The solver classes; SFMM/FMMFib are instances of FMM with other heaps *)
Inductive kind := KFMM | KFMMStar | KFMMFib | KFMMFibStar | KSFMM | KSFMMStar
                | KGMM | KFIM | KUFMM | KFSM | KLSM | KDDQM.
Inductive strategy := STIME | SDISTANCE.

(** What is constructed: class, the name if one is given, and the other constructor
    arguments, absent ones taking their defaults. [made] covers all constructors used. *)
Inductive ctorarg {D : Type} := AStrat (s : strategy) | AUns (n : Z) | ADbl (d : D).
Arguments ctorarg D : clear implicits.
Record made {D : Type} := mkMade { md_kind : kind; md_name : option text; md_args : list (ctorarg D) }.
Arguments made D : clear implicits.
Arguments mkMade {D}.

Section Configure.
(** [D] is double; the two casts are boost::lexical_cast *)
Context {D : Type} (castU : text -> option Z) (castD : text -> option D).

(** one iteration of the loop benchmarkcfg.hpp:136-267. [Ok None]: continue, no solver added;
    [Fail UB]: addSolver with an uninitialised pointer, or p[0] on an empty vector. *)
Definition configure_default (name : text) : res (option (made D)) :=
  let d k := Ok (Some (mkMade k None [])) in
  let n k s := Ok (Some (mkMade k (Some (str s)) [])) in
  if text_eqb name (str "fmm") then d KFMM else
  if text_eqb name (str "fmmstar") then d KFMMStar else
  if text_eqb name (str "fmmfib") then n KFMMFib "FMMFib"%string else
  if text_eqb name (str "fmmfibstar") then n KFMMFibStar "FMMFib*"%string else
  if text_eqb name (str "sfmm") then n KSFMM "SFMM"%string else
  if text_eqb name (str "sfmmstar") then n KSFMMStar "SFMM*"%string else
  if text_eqb name (str "gmm") then d KGMM else
  if text_eqb name (str "fim") then d KFIM else
  if text_eqb name (str "ufmm") then d KUFMM else
  if text_eqb name (str "fsm") then d KFSM else
  if text_eqb name (str "lsm") then d KLSM else
  if text_eqb name (str "ddqm") then d KDDQM else Ok None.

(** lines 183-191, 197-205, 211-219: the star solvers *)
Definition configure_star (k : kind) (p : list text) : res (option (made D)) :=
  match p with
  | [a] => Ok (Some (mkMade k (Some a) []))
  | [a; b] =>
      if text_eqb b (str "TIME") then Ok (Some (mkMade k (Some a) [AStrat STIME]))
      else if text_eqb b (str "DISTANCE") then Ok (Some (mkMade k (Some a) [AStrat SDISTANCE]))
      else Fail UB
  | _ => Fail UB
  end.

(** lines 222-227, 229-234: GMM and FIM *)
Definition configure_dbl (k : kind) (p : list text) : res (option (made D)) :=
  match p with
  | [a] => Ok (Some (mkMade k (Some a) []))
  | [a; b] => match castD b with Some v => Ok (Some (mkMade k (Some a) [ADbl v])) | None => Fail abort end
  | _ => Fail UB
  end.

(** lines 245-257: FSM and LSM *)
Definition configure_uns (k : kind) (p : list text) : res (option (made D)) :=
  match p with
  | [a] => Ok (Some (mkMade k (Some a) []))
  | [a; b] => match castU b with Some v => Ok (Some (mkMade k (Some a) [AUns v])) | None => Fail abort end
  | _ => Fail UB
  end.

(** lines 236-243: UFMM. The two casts of line 242 are unsequenced; both throw the same way. *)
Definition configure_ufmm (p : list text) : res (option (made D)) :=
  match p with
  | [a] => Ok (Some (mkMade KUFMM (Some a) []))
  | [a; b] => match castU b with Some v => Ok (Some (mkMade KUFMM (Some a) [AUns v])) | None => Fail abort end
  | [a; b; c] => match castU b, castD c with
                 | Some v, Some w => Ok (Some (mkMade KUFMM (Some a) [AUns v; ADbl w]))
                 | _, _ => Fail abort
                 end
  | _ => Fail UB
  end.

Definition configure_params (fuel : nat) (name params : text) : res (option (made D)) :=
  p <- split fuel params ;;
  let whole k := Ok (Some (mkMade k (Some params) [])) in
  if text_eqb name (str "fmm") then whole KFMM else
  if text_eqb name (str "fmmstar") then configure_star KFMMStar p else
  if text_eqb name (str "fmmfib") then whole KFMMFib else
  if text_eqb name (str "fmmfibstar") then configure_star KFMMFibStar p else
  if text_eqb name (str "sfmm") then whole KSFMM else
  if text_eqb name (str "sfmmstar") then configure_star KSFMMStar p else
  if text_eqb name (str "gmm") then configure_dbl KGMM p else
  if text_eqb name (str "fim") then configure_dbl KFIM p else
  if text_eqb name (str "ufmm") then configure_ufmm p else
  if text_eqb name (str "fsm") then configure_uns KFSM p else
  if text_eqb name (str "lsm") then configure_uns KLSM p else
  if text_eqb name (str "ddqm") then a <- vget p 0 ;; Ok (Some (mkMade KLSM (Some a) [])) else Ok None.

Definition configure_one (fuel : nat) (np : text * text) : res (option (made D)) :=
  match snd np with [] => configure_default (fst np) | _ => configure_params fuel (fst np) (snd np) end.

(** lines 136-270: the solvers added to the benchmark, in order *)
Fixpoint configure_solvers (fuel : nat) (nps : list (text * text)) : res (list (made D)) :=
  match nps with
  | [] => Ok []
  | np :: r => m <- configure_one fuel np ;; l <- configure_solvers fuel r ;;
               Ok (match m with Some m => m :: l | None => l end)
  end.
End Configure.

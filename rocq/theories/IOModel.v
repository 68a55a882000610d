(** IOModel.v - model of io/maploader.hpp and io/gridwriter.hpp.

    Files are lists of characters.  Decimal output and input of unsigned integers is
    modelled exactly; that of doubles is a pair of functions [showD]/[readD] given as
    parameters (ostream << double with the default 6 significant digits, istream >>
    double). *)
From Coq Require Import Ascii String DecimalN.
From Verif Require Import Base Num Grid TextModel.
Open Scope Z_scope.
Open Scope list_scope.

(** ** Unsigned integers as text: ostream << unsigned, istream >> unsigned *)
Fixpoint text_of_uint (u : Decimal.uint) : text :=
  match u with
  | Decimal.Nil => []
  | Decimal.D0 u => "0"%char :: text_of_uint u
  | Decimal.D1 u => "1"%char :: text_of_uint u
  | Decimal.D2 u => "2"%char :: text_of_uint u
  | Decimal.D3 u => "3"%char :: text_of_uint u
  | Decimal.D4 u => "4"%char :: text_of_uint u
  | Decimal.D5 u => "5"%char :: text_of_uint u
  | Decimal.D6 u => "6"%char :: text_of_uint u
  | Decimal.D7 u => "7"%char :: text_of_uint u
  | Decimal.D8 u => "8"%char :: text_of_uint u
  | Decimal.D9 u => "9"%char :: text_of_uint u
  end.
Definition showU (n : Z) : text := text_of_uint (N.to_uint (Z.to_N n)).

Fixpoint uint_of_text (t : text) : option Decimal.uint :=
  match t with
  | [] => Some Decimal.Nil
  | c :: r => match uint_of_text r with
      | None => None
      | Some u =>
          if Ascii.eqb c "0" then Some (Decimal.D0 u) else if Ascii.eqb c "1" then Some (Decimal.D1 u) else
          if Ascii.eqb c "2" then Some (Decimal.D2 u) else if Ascii.eqb c "3" then Some (Decimal.D3 u) else
          if Ascii.eqb c "4" then Some (Decimal.D4 u) else if Ascii.eqb c "5" then Some (Decimal.D5 u) else
          if Ascii.eqb c "6" then Some (Decimal.D6 u) else if Ascii.eqb c "7" then Some (Decimal.D7 u) else
          if Ascii.eqb c "8" then Some (Decimal.D8 u) else if Ascii.eqb c "9" then Some (Decimal.D9 u) else None
      end
  end.
(** [limit] is one more than the largest value of the type read.  Signs are not modelled:
    a token with anything but digits is unreadable. *)
Definition readU (limit : Z) (t : text) : option Z :=
  match t with
  | [] => None
  | _ => match uint_of_text t with
         | None => None
         | Some u => let n := Z.of_N (N.of_uint u) in if n <? limit then Some n else None
         end
  end.

(** ** Input streams: unread characters, and whether the stream is good() *)
Record istream := mkIn { in_rest : text; in_good : bool }.

Definition newline : ascii := "010"%char.
Definition tab : ascii := "009"%char.
(** isspace *)
Definition is_space (c : ascii) : bool :=
  let n := nat_of_ascii c in (Nat.eqb n 32 || (Nat.leb 9 n && Nat.leb n 13))%bool.

Fixpoint skip_space (t : text) : text :=
  match t with c :: r => if is_space c then skip_space r else t | [] => [] end.
(** the maximal run of non-spaces and what follows *)
Fixpoint take_token (t : text) : text * text :=
  match t with
  | [] => ([], [])
  | c :: r => if is_space c then ([], t) else let '(a, b) := take_token r in (c :: a, b)
  end.

(** std::getline(file, val) *)
Definition skip_line (s : istream) : istream :=
  if in_good s then
    match cut newline (in_rest s) with
    | (_, Some r) => mkIn r true
    | (_, None) => mkIn [] false
    end
  else s.

(** [file >> v]: if the stream is not good, or nothing but spaces is left, v keeps its value
    ([None]: uninitialised); an unreadable token sets v to zero and spoils the stream; a
    token that ends at the end of the file spoils the stream for the next extraction.
    Simplification: a number must fill its whole token. *)
Definition extract {T} (read : text -> option T) (zero : T) (s : istream) (v : option T) : istream * option T :=
  if in_good s then
    match skip_space (in_rest s) with
    | [] => (mkIn [] false, v)
    | t => let '(tok, rest) := take_token t in
           match read tok with
           | Some x => (mkIn rest (match rest with [] => false | _ => true end), Some x)
           | None => (mkIn rest false, Some zero)
           end
    end
  else (s, v).

(** using a variable: undefined if it was never written *)
Definition use {T} (v : option T) : res T := match v with Some x => Ok x | None => Fail UB end.

Section IO.
Context {N : Num} (showD : N -> text) (readD : text -> option N).

(** ** maploader.hpp *)

(** maploader.hpp:60-66 and 128-132: one cell of the loading loops *)
Definition load_cell (go : grid N * list Z) (iv : Z * N) : res (grid N * list Z) :=
  let '(g, obs) := go in let '(i, v) := iv in
  g1 <- setVelocity g i v ;;
  c <- getCell g1 i ;;
  Ok (g1, if isOccupied c then obs ++ [i] else obs).

(** maploader.hpp:60-62: the index is computed in (signed) int *)
Definition img_index (w h x y : Z) : res Z :=
  let i := w * (h - y - 1) + x in
  if (-2147483648 <=? i) && (i <? 2147483648) then Ok (u32 i) else Fail UB.

(** maploader.hpp:50-68 loadMapFromImg for a 2D grid; the image is its width, height and
    pixel function. cimg_forXY runs over y, then x. *)
Definition loadMapFromImg (w h : Z) (img : Z -> Z -> N) (g : grid N) : res (grid N) :=
  let g0 := resize g [w; h] in
  '(g1, obs) <- foldM (fun go xy => i <- img_index w h (fst xy) (snd xy) ;;
                         load_cell go (i, ndiv (img (fst xy) (snd xy)) (nofZ 255)))
                      (flat_map (fun y => map (fun x => (x, y)) (zseq (Z.to_nat w))) (zseq (Z.to_nat h)))
                      (g0, []) ;;
  Ok (setOccupiedCells g1 obs).

(** maploader.hpp:113-116 *)
Fixpoint read_dims (n : nat) (s : istream) : istream * list (option Z) :=
  match n with
  | O => (s, [])
  | S n => let '(s, v) := extract (readU 4294967296) 0 s None in
           let '(s, l) := read_dims n s in (s, v :: l)
  end.

(** maploader.hpp:126-133: the loop from cell i on, [n] cells to go *)
Fixpoint load_cells (n : nat) (i : Z) (s : istream) (occ : option N) (go : grid N * list Z) : res (grid N * list Z) :=
  match n with
  | O => Ok go
  | S n => let '(s, occ) := extract readD n0 s occ in
           v <- use occ ;;
           go <- load_cell go (i, v) ;;
           load_cells n (i + 1) s occ go
  end.

(** maploader.hpp:95-142 loadMapFromText; [None]: the file cannot be opened *)
Definition loadMapFromText (ndims : nat) (file : option text) (g : grid N) : res (Z * grid N) :=
  match file with
  | None => Ok (0, g)
  | Some t =>
      let s := skip_line (mkIn t true) in
      let '(s, leaf) := extract readD n0 s None in
      let '(s, nd) := extract (readU 18446744073709551616) 0 s None in
      nd <- use nd ;;
      if negb (nd =? Z.of_nat ndims) then Fail (Exit 1) else
      let '(s, dims) := read_dims ndims s in
      dims <- mapM use dims ;;
      leaf <- use leaf ;;
      let g1 := setLeafSize (resize g dims) leaf in
      '(g2, obs) <- load_cells (Z.to_nat (gsize g1)) 0 s None (g1, []) ;;
      Ok (1, setOccupiedCells g2 obs)
  end.

(** ** gridwriter.hpp *)

(** fmcell.h:55 *)
Definition type_line : text := str "FMCell - Fast Marching cell".

(** lines 51-56 (= 85-90); getCell(0) needs a cell *)
Definition header (g : grid N) : res text :=
  _ <- getCell g 0 ;;
  Ok (type_line ++ [newline] ++ showD (g_leaf g) ++ [newline] ++ showU (Z.of_nat (List.length (s_dims (g_sh g)))) ++
      flat_map (fun d => newline :: showU d ++ [tab]) (s_dims (g_sh g))).

(** gridwriter.hpp:47-63 saveGridValues and 81-97 saveVelocities: [sel] is getValue / getVelocity *)
Definition save_cells (sel : cell N -> N) (g : grid N) : res text :=
  h <- header g ;;
  vs <- mapM (fun i => c <- getCell g i ;; Ok (newline :: showD (sel c))) (zseq (Z.to_nat (gsize g))) ;;
  Ok (h ++ List.concat vs).
Definition saveGridValues (g : grid N) : res text := save_cells c_val g.
Definition saveVelocities (g : grid N) : res text := save_cells c_occ g.

(** gridwriter.hpp:111-129 savePath *)
Definition savePath (g : grid N) (path : list (list N)) : text :=
  showD (g_leaf g) ++ [newline] ++ showU (Z.of_nat (List.length (s_dims (g_sh g)))) ++
  flat_map (fun d => newline :: showU d ++ [tab]) (s_dims (g_sh g)) ++
  flat_map (fun p => newline :: flat_map (fun x => showD x ++ [tab]) p) path.

(** gridwriter.hpp:143-162 savePathVelocity: path_velocity[i] is unchecked *)
Definition savePathVelocity (g : grid N) (path : list (list N)) (vel : list N) : res text :=
  ls <- mapM (fun ip => v <- vget vel (fst ip) ;; Ok (newline :: flat_map (fun x => showD x ++ [tab]) (snd ip) ++ showD v))
             (combine (zseq (List.length path)) path) ;;
  Ok (showD (g_leaf g) ++ [newline] ++ showU (Z.of_nat (List.length (s_dims (g_sh g)))) ++
      flat_map (fun d => newline :: showU d) (s_dims (g_sh g)) ++ List.concat ls).
End IO.

(** ScriptModel.v - model of the Matlab scripts that read and write the library's files:
    scripts/parseGrid.m, saveGridToFile.m, parsepath.m, parsepathvel.m, idx2coord.m and
    parseBenchmarkLog.m.

    Matlab numbers are doubles.  Numbers that are used as sizes or indices are integers here,
    read from the same text; a size that is not written with digits is an error.  A Matlab
    error is [Fail (Exit 1)].  Plotting and analyzeBenchmark.m (an average and a plot of what
    parseBenchmarkLog.m returns) are not modelled. *)
From Coq Require Import Ascii String.
From Verif Require Import Base Num Grid TextModel IOModel.
Open Scope Z_scope.
Open Scope list_scope.

Definition merror {A} : res A := Fail (Exit 1).
Definition must {A} (o : option A) : res A := match o with Some x => Ok x | None => merror end.

(** ** text *)

(** the maximal runs of non-spaces of a text *)
Fixpoint words (t : text) : list text :=
  match t with
  | [] => []
  | c :: r =>
      if is_space c then words r
      else match r with
           | [] => [[c]]
           | c' :: _ => if is_space c' then [c] :: words r
                        else match words r with w :: ws => (c :: w) :: ws | [] => [[c]] end
           end
  end.

(** fscanf(fid, '%f'): all numbers up to the first thing that is not one.  Simplification:
    a number must fill its whole token. *)
Fixpoint scanned {T} (read : text -> option T) (ws : list text) : list text :=
  match ws with
  | [] => []
  | w :: r => match read w with Some _ => w :: scanned read r | None => [] end
  end.

(** fgetl(fid) and what is left of the file *)
Definition fgetl (t : text) : text * text :=
  match cut newline t with (l, Some r) => (l, r) | (l, None) => (l, []) end.

(** ** arrays: sizes and elements in column-major order *)
Section Arrays.
Context {T : Type}.
Record marray := mkM { m_size : list Z; m_data : list T }.

(** A(c1, ..., cn), subscripts from 1 *)
Fixpoint m_offset (size cs : list Z) : option Z :=
  match size, cs with
  | [], [] => Some 0
  | d :: ds, c :: cs =>
      if (1 <=? c) && (c <=? d) then match m_offset ds cs with Some o => Some ((c - 1) + d * o) | None => None end
      else None
  | _, _ => None
  end.
Definition m_at (m : marray) (cs : list Z) : option T :=
  match m_offset (m_size m) cs with Some o => nth_error (m_data m) (Z.to_nat o) | None => None end.

(** reshape(data, size): needs two sizes or more, and as many elements as they say *)
Definition m_reshape (data : list T) (size : list Z) : res marray :=
  if (2 <=? Z.of_nat (List.length size)) && (fold_right Z.mul 1 size =? Z.of_nat (List.length data)) then Ok (mkM size data) else merror.

(** A' for a matrix; not defined for other arrays *)
Definition m_transpose (m : marray) : res marray :=
  match m_size m with
  | [r; c] =>
      data <- mapM (fun ij => must (m_at m [snd ij + 1; fst ij + 1]))
                   (flat_map (fun i => map (fun j => (j, i)) (zseq (Z.to_nat c))) (zseq (Z.to_nat r))) ;;
      Ok (mkM [c; r] data)
  | _ => merror
  end.

(** size(A): trailing sizes of one are dropped, but two sizes always stay *)
Fixpoint drop_ones (l : list Z) : list Z :=
  match l with
  | [] => []
  | d :: r => match drop_ones r with [] => if d =? 1 then [] else [d] | r' => d :: r' end
  end.
Definition m_dims (m : marray) : list Z :=
  match m_size m with a :: b :: r => a :: b :: drop_ones r | l => l end.
End Arrays.
Arguments marray : clear implicits.

Section Scripts.
Context {N : Num} (read : text -> option N).

(** data(i): the i-th number (from 1), as a double and as an integer *)
Definition dnum (data : list text) (i : Z) : res N := t <- must (nth_error data (Z.to_nat (i - 1))) ;; must (read t).
Definition dint (data : list text) (i : Z) : res Z := t <- must (nth_error data (Z.to_nat (i - 1))) ;; must (readU 4294967296 t).

(** ** parseGrid.m *)
Record mgrid := mkMG { mg_type : text; mg_leaf : N; mg_ndims : Z; mg_dims : list Z; mg_cells : marray N }.

(** parseGrid.m:1-25 *)
Definition parseGrid (file : text) : res mgrid :=
  let '(celltype, rest) := fgetl file in
  let data := scanned read (words rest) in
  leaf <- dnum data 1 ;;
  nd <- dint data 2 ;;
  dims <- mapM (fun i => dint data (i + 3)) (zseq (Z.to_nat nd)) ;;
  cells <- mapM (fun t => must (read t)) (skipn (Z.to_nat (nd + 2)) data) ;;
  a <- m_reshape cells dims ;;
  a <- (if nd =? 2 then m_transpose a else Ok a) ;;
  Ok (mkMG celltype leaf nd dims a).

(** ** saveGridToFile.m *)
(** saveGridToFile.m:4-23; [show6] prints with '%f', [show2] with '%.2f'; [leaf]: the
    optional third argument *)
Definition saveGridToFile (show6 show2 : N -> text) (m : marray N) (leaf : option N) : text :=
  str "FMCell - Fast Marching Cell" ++ [newline] ++
  (match leaf with Some l => show6 l | None => str "1.0" end) ++ [newline] ++
  showU (Z.of_nat (List.length (m_dims m))) ++ [newline] ++
  flat_map (fun d => showU d ++ [newline]) (m_dims m) ++
  flat_map (fun x => show2 x ++ [newline]) (m_data m).

(** ** parsepath.m and parsepathvel.m *)
(** the numbers from position [i] on, [step] at a time: the loop "for i = ndims+3:step:size" *)
Fixpoint groups (fuel : nat) (step : nat) (l : list text) : list (list text) :=
  match fuel, l with
  | S fuel, _ :: _ => firstn step l :: groups fuel step (skipn step l)
  | _, _ => []
  end.

(** zeros(a/b, n): the number of rows.  A fractional size is an error in current versions
    ([strict]); older ones and this model with [strict = false] drop the fraction. *)
Definition rows (strict : bool) (a b : Z) : res Z :=
  if strict && negb (a mod b =? 0) then merror else Ok (a / b).

(** x + 1 *)
Definition plus1 (x : N) : N := nadd x n1.

(** path(count, :) = data(i..i+ndims-1) + 1, in rows of an array of [r] zero rows that grows *)
Definition fill (nd : Z) (r : Z) (rowsOf : list (list N)) : list (list N) :=
  rowsOf ++ repeat (repeat n0 (Z.to_nat nd)) (Z.to_nat r - List.length rowsOf).

(** lines 4-13 of both scripts *)
Definition path_header_of (file : text) : res (list text * Z) :=
  let data := scanned read (words file) in
  _ <- dnum data 1 ;;
  nd <- dint data 2 ;;
  _ <- mapM (fun i => dint data (i + 3)) (zseq (Z.to_nat nd)) ;;
  Ok (data, nd).

(** parsepath.m:1-22; a row is [ndims] numbers, each plus one *)
Definition parsepath (strict : bool) (file : text) : res (list (list N)) :=
  '(data, nd) <- path_header_of file ;;
  r <- rows strict (Z.of_nat (List.length data) - (nd + 2)) nd ;;
  let body := skipn (Z.to_nat (nd + 2)) data in
  pts <- mapM (fun grp => mapM (fun j => x <- dnum grp (j + 1) ;; Ok (plus1 x)) (zseq (Z.to_nat nd)))
              (groups (List.length body) (Z.to_nat nd) body) ;;
  Ok (fill nd r pts).

(** parsepathvel.m:1-23; the rows are allocated as in parsepath.m although a point takes
    ndims+1 numbers *)
Definition parsepathvel (strict : bool) (file : text) : res (list (list N) * list N) :=
  '(data, nd) <- path_header_of file ;;
  r <- rows strict (Z.of_nat (List.length data) - (nd + 2)) nd ;;
  let body := skipn (Z.to_nat (nd + 2)) data in
  pvs <- mapM (fun grp => p <- mapM (fun j => x <- dnum grp (j + 1) ;; Ok (plus1 x)) (zseq (Z.to_nat nd)) ;;
                          v <- dnum grp (nd + 1) ;; Ok (p, v))
              (groups (List.length body) (Z.to_nat (nd + 1)) body) ;;
  Ok (fill nd r (map fst pvs), map snd pvs).
End Scripts.

(** ** idx2coord.m *)
(** idx2coord.m:5-9: d(i) = product of the first i sizes *)
Fixpoint running (a : Z) (l : list Z) : list Z :=
  match l with [] => [] | k :: r => (a * k) :: running (a * k) r end.
(** idx2coord.m:14-19: the loop for i = ndims-1 .. 2, then coords(j,1) = aux; [ds] are
    d(i-1), largest first; the coordinates come out last first *)
Fixpoint idx2coord_m_loop (aux : Z) (ds : list Z) : list Z :=
  match ds with
  | [] => [aux]
  | d :: r => (aux / d) :: idx2coord_m_loop (aux - aux / d * d) r
  end.
(** idx2coord.m:3-23 for one index; with one dimension d(0) is an error *)
Definition idx2coord_m (dims : list Z) (idx : Z) : res (list Z) :=
  match tl (rev (running 1 dims)) with
  | [] => merror
  | ds => Ok (map (fun c => c + 1) (rev (idx2coord_m_loop idx ds)))
  end.

(** ** parseBenchmarkLog.m *)
(** regexprep(txt, '\s+', '\t') *)
Fixpoint collapse (t : text) : text :=
  match t with
  | [] => []
  | c :: r => if is_space c then match r with c' :: _ => if is_space c' then collapse r else tab :: collapse r | [] => [tab] end
              else c :: collapse r
  end.
(** regexp(txt, '[\t\n]', 'split') *)
Fixpoint split_log (t : text) : list text :=
  match t with
  | [] => [[]]
  | c :: r => if Ascii.eqb c tab || Ascii.eqb c newline then [] :: split_log r
              else match split_log r with f :: fs => (c :: f) :: fs | [] => [[c]] end
  end.

Section Log.
Context {T : Type} (str2double : text -> option T).   (* None: NaN *)

Record mlog := mkLog { ml_name : text; ml_nruns : Z; ml_ndims : Z; ml_dims : list Z; ml_start : list Z; ml_goal : option Z;
                       ml_nexp : Z; ml_exp : list (text * list (option T)) }.

(** the numbers of the header *)
Definition hint (txt : list text) (i : Z) : res Z :=
  t <- must (nth_error txt (Z.to_nat (i - 1))) ;; must (readU 4294967296 t).

(** parseBenchmarkLog.m:1-44.  The counts (length - header)/3 and nexp/nruns must be whole
    numbers, as for [rows]. *)
Definition parseBenchmarkLog (file : text) : res mlog :=
  let txt := split_log (collapse file) in
  name <- must (nth_error txt 0) ;;
  nruns <- hint txt 2 ;;
  nd <- hint txt 3 ;;
  dims <- mapM (fun i => hint txt (i + 4)) (zseq (Z.to_nat nd)) ;;
  ns <- hint txt (4 + nd) ;;
  starts <- mapM (fun i => hint txt (5 + nd + i)) (zseq (Z.to_nat ns)) ;;
  g <- must (nth_error txt (Z.to_nat (5 + nd + ns - 1))) ;;
  let hs := 5 + nd + ns in
  let len := Z.of_nat (List.length txt) - hs in
  if negb (len mod 3 =? 0) then merror else
  let nexp := len / 3 in
  if (nruns =? 0) || negb (nexp mod nruns =? 0) then merror else
  let solver i := must (nth_error txt (Z.to_nat (hs + i * 3 + 1))) in
  let time i := t <- must (nth_error txt (Z.to_nat (hs + i * 3 + 2))) ;; Ok (str2double t) in
  exps <- mapM (fun i => nm <- solver (i * nruns) ;;
                         ts <- mapM (fun j => time (i * nruns + j)) (zseq (Z.to_nat nruns)) ;;
                         Ok (nm, ts))
               (zseq (Z.to_nat (nexp / nruns))) ;;
  Ok (mkLog name nruns nd dims starts (readU 4294967296 g) nexp exps).
End Log.

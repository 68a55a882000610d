(** PlotModel.v - model of io/gridplotter.hpp and io/gridpoints.hpp.

    A CImg image is its width, height, number of channels and the vector of its values;
    the depth is 1 everywhere in these files.  What is modelled is the image handed to
    img.display(); the window itself and the colour tables applied by img.map() are not.
    CImg's constructor does not fail for the sizes used and width()/height() are the
    sizes as int.  Both classes only compile for two dimensions. *)
From Verif Require Import Base Num Grid IOModel.
Open Scope Z_scope.

Record image (T : Type) := mkImg { im_w : Z; im_h : Z; im_c : Z; im_data : list T }.
Arguments mkImg {T}. Arguments im_w {T}. Arguments im_h {T}. Arguments im_c {T}. Arguments im_data {T}.

(** CImg<T> img(w, h, 1, c, 0) *)
Definition img_new {T} (w h c : Z) (zero : T) : image T := mkImg w h c (repeat zero (Z.to_nat (w * h * c))).

(** CImg.h operator()(x, y, z, c) with z = 0: no check, the arguments are unsigned and
    the offset is computed in 64 bits *)
Definition img_offset {T} (im : image T) (x y c : Z) : Z := x + y * im_w im + c * (im_w im * im_h im).

(** img(x,y,0,c) = v *)
Definition img_set {T} (im : image T) (x y c : Z) (v : T) : res (image T) :=
  d <- vset (im_data im) (img_offset im x y c) v ;;
  Ok (mkImg (im_w im) (im_h im) (im_c im) d).

(** img(x,y,0,c) *)
Definition img_get {T} (im : image T) (x y c : Z) : res T := vget (im_data im) (img_offset im x y c).

(** the order of cimg_forXYZC with one z: channels, then rows, then columns *)
Definition img_coords (w h c : Z) : list (Z * Z * Z) :=
  flat_map (fun k => flat_map (fun y => map (fun x => (x, y, k)) (zseq (Z.to_nat w))) (zseq (Z.to_nat h))) (zseq (Z.to_nat c)).

(** cimg_forXYZC(img,x,y,z,c) { img(x,y,z,c) = f } *)
Definition img_fill {T} (f : Z -> Z -> res T) (im : image T) : res (image T) :=
  foldM (fun im p => let '(x, y, k) := p in v <- f x y ;; img_set im x y k v) (img_coords (im_w im) (im_h im) (im_c im)) im.

(** getDimSizes() assigned to an array of two *)
Definition dims_2d {N : Num} (g : grid N) : res (Z * Z) :=
  match s_dims (g_sh g) with [w; h] => Ok (w, h) | _ => Fail UB end.

Section Plot.
Context {N : Num}.
Local Open Scope num_scope.

(** grid[img.width()*(img.height()-y-1)+x] *)
Definition cell_under (g : grid N) (w h x y : Z) : res (cell N) :=
  i <- img_index w h x y ;; getCell g i.

(** gridplotter.hpp:58-71 plotMap *)
Definition plotMap (g : grid N) : res (image bool) :=
  '(w, h) <- dims_2d g ;;
  img_fill (fun x y => c <- cell_under g w h x y ;; Ok (negb (isOccupied c))) (img_new w h 1 false).

(** gridplotter.hpp:82-91 plotOccupancyMap *)
Definition plotOccupancyMap (g : grid N) : res (image N) :=
  '(w, h) <- dims_2d g ;;
  img_fill (fun x y => c <- cell_under g w h x y ;; Ok (c_occ c * nofZ 255)) (img_new w h 1 n0).

(** gridplotter.hpp:102-113 plotArrivalTimes, before the colour table *)
Definition plotArrivalTimes (g : grid N) : res (image N) :=
  '(w, h) <- dims_2d g ;;
  let m := getMaxValue g in
  img_fill (fun x y => c <- cell_under g w h x y ;; Ok (c_val c / m * nofZ 255)) (img_new w h 1 n0).

(** static_cast<unsigned int>(a double): undefined if the truncated value is not an unsigned int *)
Definition to_unsigned (x : N) : res Z :=
  match ntrunc x with
  | Some z => if (0 <=? z)%Z && (z <? 4294967296)%Z then Ok z else Fail UB
  | None => Fail UB
  end.

(** (static_cast<unsigned int>(p[0]), img.height()-static_cast<unsigned int>(p[1])-1): the
    second is an unsigned subtraction *)
Definition path_pixel (h : Z) (p : list N) : res (Z * Z) :=
  px <- vget p 0 ;; x <- to_unsigned px ;;
  py <- vget p 1 ;; y <- to_unsigned py ;;
  Ok (x, u32 (h - y - 1)).

(** gridplotter.hpp:135-139: the pixels of one path, in the channels [cs] *)
Definition draw_path (cs : list Z) (v : N) (path : list (list N)) (im : image N) : res (image N) :=
  foldM (fun im p => '(x, y) <- path_pixel (im_h im) p ;; foldM (fun im c => img_set im x y c v) cs im) path im.

(** white where the cell is free: (!grid[..].isOccupied())*255 *)
Definition map_image (g : grid N) (w h c : Z) : res (image N) :=
  img_fill (fun x y => c <- cell_under g w h x y ;; Ok (if isOccupied c then n0 else nofZ 255)) (img_new w h c n0).

(** gridplotter.hpp:125-143 plotMapPath *)
Definition plotMapPath (g : grid N) (path : list (list N)) : res (image N) :=
  '(w, h) <- dims_2d g ;;
  im <- map_image g w h 3 ;;
  draw_path [1%Z; 2%Z] n0 path im.

(** gridplotter.hpp:154-170 plotOccupancyPath *)
Definition plotOccupancyPath (g : grid N) (path : list (list N)) : res (image N) :=
  '(w, h) <- dims_2d g ;;
  im <- img_fill (fun x y => c <- cell_under g w h x y ;; Ok (c_occ c * nofZ 255)) (img_new w h 3 n0) ;;
  draw_path [1%Z; 2%Z] n0 path im.

(** gridplotter.hpp:181-203 plotMapPaths: path j is drawn in channels j and j+1 *)
Fixpoint draw_paths (j : Z) (paths : list (list (list N))) (im : image N) : res (image N) :=
  match paths with
  | [] => Ok im
  | p :: r => im <- draw_path [j; (j + 1)%Z] n0 p im ;; draw_paths (j + 1)%Z r im
  end.
Definition plotMapPaths (g : grid N) (paths : list (list (list N))) : res (image N) :=
  '(w, h) <- dims_2d g ;;
  im <- map_image g w h 3 ;;
  draw_paths 0 paths im.

(** gridplotter.hpp:214-230 plotArrivalTimesPath, before the colour table *)
Definition plotArrivalTimesPath (g : grid N) (path : list (list N)) : res (image N) :=
  im <- plotArrivalTimes g ;;
  draw_path [0%Z] (nofZ 255) path im.

(** gridplotter.hpp:238-258 plotFMStates *)
Definition plotFMStates (g : grid N) : res (image Z) :=
  '(w, h) <- dims_2d g ;;
  img_fill (fun x y => c <- cell_under g w h x y ;;
              Ok (match c_state c with NARROW => 127 | OPEN => 255 | FROZEN => 0 end)%Z) (img_new w h 1 0%Z).

(** gridpoints.hpp:60-66: the picture shown for the selection *)
Definition select_image (g : grid N) (flipY : bool) : res (image N) :=
  '(w, h) <- dims_2d g ;;
  img_fill (fun x y => if flipY then c <- cell_under g w h x y ;; Ok (c_occ c * nofZ 255)
                       else i <- (let i := w * y + x in if (-2147483648 <=? i) && (i <? 2147483648) then Ok (u32 i) else Fail UB)%Z ;;
                            c <- getCell g i ;; Ok (c_occ c)) (img_new w h 1 n0).

(** What main_disp reports after a wait(): button() <> 0, mouse_x(), mouse_y() *)
Record mouse := mkMouse { m_button : bool; m_x : Z; m_y : Z }.

(** gridpoints.hpp:71-80 and 86-95: [while (x == 0)] over the events still to come; the
    point and the events that remain.  Out of events: still waiting. *)
Fixpoint wait_click (h : Z) (flipY : bool) (evs : list mouse) : res (Z * Z * list mouse) :=
  match evs with
  | [] => Fail OutOfFuel
  | e :: r =>
      if m_button e && (0 <=? m_y e)%Z then
        let y := if flipY then u32 (h - 1 - m_y e) else u32 (m_y e) in
        let x := u32 (m_x e) in
        if (x =? 0)%Z then wait_click h flipY r else Ok (x, y, r)
      else wait_click h flipY r
  end.

(** gridpoints.hpp:53-98 selectMapPoints: coords_init and coords_goal *)
Definition selectMapPoints (g : grid N) (flipY : bool) (evs : list mouse) : res (list Z * list Z) :=
  '(w, h) <- dims_2d g ;;
  im <- select_image g flipY ;;
  '(x, y, evs) <- wait_click h flipY evs ;;
  '(x', y', _) <- wait_click h flipY evs ;;
  Ok ([x; y], [x'; y']).

End Plot.

(** Model of the functions that make pictures of a dataset when lengths, fields and coordinates are cosmo arrays with
    their frame (comoving or physical), scale factor and exponent: visualisation/_vistools.py [_get_region_info],
    [_get_rotated_and_wrapped_coordinates], [backend_strip_and_restore_cosmo_and_units], projection.py
    [project_pixel_grid], slice.py [slice_pixel_grid] and volume_render.py [render_voxel_grid].

    FrontModel.v has the same functions on bare numbers.  Here every operation goes through the arithmetic of
    CosmoModel.v.  Lengths are in one unit.  The coordinates, an array of shape (n, 3), are given as three columns.
    [np.matmul] is written as products and sums, in-place remainders as remainders.  Masks are boolean. *)
From Coq Require Import List ZArith Reals Bool.
From Verif Require Import Base VisModel RotModel HsmlModel CosmoModel RegionModel FrontModel.
Import ListNotations.
Open Scope R_scope.

(** ** Functions of numpy *)

(** [np.remainder] keeps labels (objects.py 993). *)
Definition remop : operand -> operand -> res carr := ufunc2 rmod (fun c1 c2 => h_preserve [c1; c2]).
(** [np.r_[x, y].max()] of two quantities: a list of both, then its largest element. *)
Definition largest (x y : carr) : res carr :=
  do p <- prepare true [OArr x; OArr y];
  do c <- h_preserve (p_cfs p);
  match p_args p with
  | [x'; y'] =>
      match op_vals x' ++ op_vals y' with
      | [] => Err ValueError
      | v :: vs => Ok (mkarr [fold_left Rmax vs v] c (p_cm p) (p_vt p) (p_comp p))
      end
  | _ => Err TypeError
  end.
(** [np.isclose] of two quantities. *)
Definition close (x y : carr) : res bool := truth (ufunc_cmp FrontModel.isclose (OArr x) (OArr y)).
Definition same_label (x : carr) (v : list R) : carr := mkarr v (acf x) (acm x) (avt x) (acomp x).
(** [np.zeros_like] of a quantity. *)
Definition zero_like (x : carr) : carr := same_label x [0].
(** [int(np.ceil(q))]. *)
Definition int_ceil (x : carr) : res Z :=
  match avals x with [v] => Ok (ceil v) | _ => Err TypeError end.
(** [x[mask]]. *)
Definition picked (mask : option (list bool)) (x : carr) : res carr :=
  do v <- pick mask (avals x); Ok (same_label x v).

(** ** _vistools.py 37-121 *)

(** Lines 66-74, for one array. *)
Definition in_frame (cm : option bool) (x : carr) : res carr :=
  match cm with
  | Some true => to_comoving x
  | Some false => to_physical x
  | None => Ok x
  end.

Record finfo := mkfinfo {
  f_xmin : carr; f_ymin : carr; f_zmin : carr; f_zmax : carr;
  f_xrange : carr; f_yrange : carr; f_zrange : carr; f_max : carr;
  f_has_z : bool;
  f_box : option (carr * carr * carr)   (* None: zeros, without labels *)
}.

Definition f_region_info (require_cubic periodic : bool) (cm : option bool) (boxsize : carr) (region : option carr)
  : res finfo :=
  do boxsize <- in_frame cm boxsize;
  do region <- match region with None => Ok None | Some r => do r' <- in_frame cm r; Ok (Some r') end;
  do bx <- item boxsize 0; do by_ <- item boxsize 1; do bz <- item boxsize 2;
  do edges <- match region with
    | Some r =>
        if (length (avals r) <? 4)%nat then Err ValueError
        else
          do x0 <- item r 0; do x1 <- item r 1; do y0 <- item r 2; do y1 <- item r 3;
          if (length (avals r) =? 6)%nat
          then do z0 <- item r 4; do z1 <- item r 5; Ok (x0, x1, y0, y1, z0, z1, true)
          else Ok (x0, x1, y0, y1, zero_like bz, bz, false)
    | None => Ok (zero_like bx, bx, zero_like by_, by_, zero_like bz, bz, false)
    end;
  let '(x0, x1, y0, y1, z0, z1, has) := edges in
  do xr <- binop Bsub (OArr x1) (OArr x0);
  do yr <- binop Bsub (OArr y1) (OArr y0);
  do zr <- binop Bsub (OArr z1) (OArr z0);
  do mr <- largest xr yr;
  do refused <- (if require_cubic then do a <- close xr yr; (if a then do b <- close xr zr; Ok (negb b) else Ok true)
                 else Ok false);
  if refused then Err AttributeError
  else
    do box <- (if periodic
               then do b <- binop Bdiv (OArr boxsize) (OArr mr);
                    do b0 <- item b 0; do b1 <- item b 1; do b2 <- item b 2; Ok (Some (b0, b1, b2))
               else Ok None);
    Ok (mkfinfo x0 y0 z0 z1 xr yr zr mr has box).

(** ** _vistools.py 124-172 *)

Definition cols := (carr * carr * carr)%type.

(** A row of the matrix times the three columns. *)
Definition row_times (r : vec) (c : cols) : res carr :=
  let '(m0, m1, m2) := r in let '(x, y, z) := c in
  do a <- binop Bmul (OPlain [m0]) (OArr x);
  do b <- binop Bmul (OPlain [m1]) (OArr y);
  do d <- binop Bmul (OPlain [m2]) (OArr z);
  do ab <- binop Badd (OArr a) (OArr b);
  binop Badd (OArr ab) (OArr d).

Definition f_placed (periodic : bool) (boxsize : carr) (rotation : option (mat * carr)) (c : cols) : res (cols * cols) :=
  let '(x, y, z) := c in
  match rotation with
  | Some (matrix, center) =>
      if periodic then Err ValueError
      else
        do center <- in_frame (acm x) center;
        do c0 <- item center 0; do c1 <- item center 1; do c2 <- item center 2;
        do dx <- binop Bsub (OArr x) (OArr c0);
        do dy <- binop Bsub (OArr y) (OArr c1);
        do dz <- binop Bsub (OArr z) (OArr c2);
        let '(r0, r1, r2) := matrix in
        do x' <- row_times r0 (dx, dy, dz);
        do y' <- row_times r1 (dx, dy, dz);
        do z' <- row_times r2 (dx, dy, dz);
        do x' <- binop Badd (OArr x') (OArr c0);
        do y' <- binop Badd (OArr y') (OArr c1);
        do z' <- binop Badd (OArr z') (OArr c2);
        Ok ((x', y', z'), c)
  | None =>
      if periodic then
        do boxsize <- to_cm (acm x) boxsize;
        do b0 <- item boxsize 0; do b1 <- item boxsize 1; do b2 <- item boxsize 2;
        do x' <- remop (OArr x) (OArr b0);
        do y' <- remop (OArr y) (OArr b1);
        do z' <- remop (OArr z) (OArr b2);
        Ok ((x', y', z'), (x', y', z'))
      else Ok (c, c)
  end.

(** ** _vistools.py 175-273 *)

(** Arrays are brought to the frame of the field: [convert_to_comoving] or [convert_to_physical] on the spot. *)
Definition into (cm : option bool) (x : carr) : res carr :=
  match cm with
  | Some true => convert_to_comoving x
  | Some false => convert_to_physical x
  | None => Ok x
  end.

(** A picture with its labels. *)
Record fpicture := mkfpicture { fp_shape : shape; fp_image : image; fp_cf : option cf; fp_cm : option bool }.

(** The image with the labels of the field, divided by the norm; every pixel goes through the arithmetic.  A field
    without a frame, or that is no cosmo array, is divided by one. *)
Definition restored (m : operand) (norm : carr) (sh : shape) (img : image) : res fpicture :=
  match m with
  | OPlain _ => Ok (mkfpicture sh (fun c => img c / 1) None None)
  | OArr m =>
      do n <- match acm m with None => Ok (OPlain [1]) | cm => do n <- in_frame cm norm; Ok (OArr n) end;
      do r <- binop Bdiv (OArr (same_label m [0])) n;
      Ok (mkfpicture sh
            (fun c => match binop Bdiv (OArr (same_label m [img c])) n with Ok r => hd 0 (avals r) | Err _ => 0 end)
            (acf r) (acm r))
  end.

Definition op_frame (m : operand) : option bool := match m with OArr x => acm x | OPlain _ => None end.

(** ** The dataset *)

Record fdata := mkfdata { d_coords : cols; d_box : carr; d_m : operand; d_h : carr }.

Fixpoint parts_of (xs ys zs ms hs : list R) : list part :=
  match xs, ys, zs, ms, hs with
  | x :: xs, y :: ys, z :: zs, m :: ms, h :: hs => mkpart x y z m h :: parts_of xs ys zs ms hs
  | _, _, _, _, _ => []
  end.

(** [(q - low) / range], then the remainder if periodic. *)
Definition f_normed (q : carr) (low : option carr) (range : carr) (box : option carr) : res carr :=
  do q <- match low with Some l => binop Bsub (OArr q) (OArr l) | None => Ok q end;
  do n <- binop Bdiv (OArr q) (OArr range);
  match box with Some b => remop (OArr n) (OArr b) | None => Ok n end.

Definition box_col (k : cols -> carr) (b : option cols) : option carr := match b with Some b => Some (k b) | None => None end.
Definition col0 (c : cols) : carr := let '(x, _, _) := c in x.
Definition col1 (c : cols) : carr := let '(_, y, _) := c in y.
Definition col2 (c : cols) : carr := let '(_, _, z) := c in z.
(** The number that the backend gets. *)
Definition box_val (k : cols -> carr) (b : option cols) : R := match b with Some b => hd 0 (avals (k b)) | None => 0 end.

(** ** projection.py 101-162 *)

Definition f_depth (periodic : bool) (boxsize : carr) (i : finfo) (mask : option (list bool)) (z : carr)
  : res (option (list bool)) :=
  if f_has_z i then
    do zs <-
      (if periodic then
         do lz <- item boxsize 2;
         do deep <- truth (cmpop Cgt (OArr (f_zrange i)) (OArr lz));
         if deep then Err ValueError
         else
           do top <- remop (OArr (f_zmax i)) (OArr lz);
           do bottom <- remop (OArr (f_zmin i)) (OArr lz);
           do backwards <- truth (cmpop Cle (OArr top) (OArr bottom));
           do below <- cmpop Cle (OArr z) (OArr top);
           do above <- cmpop Cge (OArr z) (OArr bottom);
           Ok (map (fun ab => if backwards then fst ab || snd ab else fst ab && snd ab) (combine below above))
       else
         do below <- cmpop Cle (OArr z) (OArr (f_zmax i));
         do above <- cmpop Cge (OArr z) (OArr (f_zmin i));
         Ok (map (fun ab => fst ab && snd ab) (combine below above)));
    match mask with
    | None => Ok (Some zs)
    | Some bs => if (zlen bs =? zlen zs)%Z then Ok (Some (map (fun ab => fst ab && snd ab) (combine bs zs))) else Err ValueError
    end
  else Ok mask.

Definition op_picked (mask : option (list bool)) (m : operand) : res operand :=
  match m with
  | OArr x => do y <- picked mask x; Ok (OArr y)
  | OPlain v => do w <- pick mask v; Ok (OPlain w)
  end.

Definition f_pixels (n : Z) (range mr : carr) : res Z :=
  do q <- binop Bdiv (OArr range) (OArr mr);
  do k <- binop Bmul (OPlain [IZR n]) (OArr q);
  int_ceil k.

Definition f_project (backend : Z -> R -> R -> list part -> res image) (n : Z) (periodic : bool) (d : fdata)
    (region : option carr) (rotation : option (mat * carr)) (mask : option (list bool)) : res (fpicture * cols) :=
  do i <- f_region_info false periodic (acm (col0 (d_coords d))) (d_box d) region;
  do both <- f_placed periodic (d_box d) rotation (d_coords d);
  let '((x, y, z), stored) := both in
  do mask <- f_depth periodic (d_box d) i mask z;
  do x <- picked mask x;
  do nx <- f_normed x (Some (f_xmin i)) (f_max i) (box_col col0 (f_box i));
  do y <- picked mask y;
  do ny <- f_normed y (Some (f_ymin i)) (f_max i) (box_col col1 (f_box i));
  do m <- op_picked mask (d_m d);
  do h <- picked mask (d_h d);
  do nh <- binop Bdiv (OArr h) (OArr (f_max i));
  do norm <- binop Bmul (OArr (f_xrange i)) (OArr (f_yrange i));
  let cm := op_frame m in
  do nx <- into cm nx; do ny <- into cm ny; do nh <- into cm nh;
  do z <- picked mask z;
  do img <- backend n (box_val col0 (f_box i)) (box_val col1 (f_box i))
              (parts_of (avals nx) (avals ny) (avals z) (op_vals m) (avals nh));
  do xres <- f_pixels n (f_xrange i) (f_max i);
  do yres <- f_pixels n (f_yrange i) (f_max i);
  do pic <- restored m norm [stop_index n xres; stop_index n yres] img;
  Ok (pic, stored).

(** ** slice.py 104-154 *)

(** [int(np.ceil(resolution * range / max_range))]. *)
Definition f_pixels_slice (n : Z) (range mr : carr) : res Z :=
  do k <- binop Bmul (OPlain [IZR n]) (OArr range);
  do q <- binop Bdiv (OArr k) (OArr mr);
  int_ceil q.

Definition f_slice (backend : Z -> Z -> R -> R -> R -> R -> list part -> res image) (n : Z) (z_slice : option carr)
    (periodic : bool) (d : fdata) (region : option carr) (rotation : option (mat * carr)) (mask : option (list bool))
  : res (fpicture * cols) :=
  do zs <- match z_slice with Some z => Ok z | None => do b <- item (d_box d) 0; Ok (zero_like b) end;
  do i <- f_region_info false periodic (acm (col0 (d_coords d))) (d_box d) region;
  do both <- f_placed periodic (d_box d) rotation (d_coords d);
  let '((x, y, z), stored) := both in
  do zc <- match rotation with Some (_, center) => item center 2 | None => do b <- item (d_box d) 2; Ok (zero_like b) end;
  do xres <- f_pixels_slice n (f_xrange i) (f_max i);
  do yres <- f_pixels_slice n (f_yrange i) (f_max i);
  do x <- picked mask x;
  do nx <- f_normed x (Some (f_xmin i)) (f_max i) (box_col col0 (f_box i));
  do y <- picked mask y;
  do ny <- f_normed y (Some (f_ymin i)) (f_max i) (box_col col1 (f_box i));
  do z <- picked mask z;
  do nz <- f_normed z None (f_max i) (box_col col2 (f_box i));
  do sum <- binop Badd (OArr zs) (OArr zc);
  do ns <- f_normed sum None (f_max i) (box_col col2 (f_box i));
  do m <- op_picked mask (d_m d);
  do h <- picked mask (d_h d);
  do nh <- binop Bdiv (OArr h) (OArr (f_max i));
  do norm <- powop (OArr (f_max i)) (OPlain [3]);
  let cm := op_frame m in
  do nx <- into cm nx; do ny <- into cm ny; do nh <- into cm nh;
  do img <- backend xres yres (hd 0 (avals ns)) (box_val col0 (f_box i)) (box_val col1 (f_box i)) (box_val col2 (f_box i))
              (parts_of (avals nx) (avals ny) (avals nz) (op_vals m) (avals nh));
  do pic <- restored m norm [xres; yres] img;
  Ok (pic, stored).

(** ** volume_render.py 104-135 *)

Definition f_voxels (backend : Z -> R -> R -> R -> list part -> res image) (n : Z) (periodic : bool) (d : fdata)
    (region : option carr) (rotation : option (mat * carr)) (mask : option (list bool)) : res (fpicture * cols) :=
  do i <- f_region_info true periodic (acm (col0 (d_coords d))) (d_box d) region;
  do both <- f_placed periodic (d_box d) rotation (d_coords d);
  let '((x, y, z), stored) := both in
  do x <- picked mask x;
  do nx <- f_normed x (Some (f_xmin i)) (f_xrange i) (box_col col0 (f_box i));
  do y <- picked mask y;
  do ny <- f_normed y (Some (f_ymin i)) (f_yrange i) (box_col col1 (f_box i));
  do z <- picked mask z;
  do nz <- f_normed z (Some (f_zmin i)) (f_zrange i) (box_col col2 (f_box i));
  do m <- op_picked mask (d_m d);
  do h <- picked mask (d_h d);
  do nh <- binop Bdiv (OArr h) (OArr (f_xrange i));
  do area <- binop Bmul (OArr (f_xrange i)) (OArr (f_yrange i));
  do norm <- binop Bmul (OArr area) (OArr (f_zrange i));
  let cm := op_frame m in
  do nx <- into cm nx; do ny <- into cm ny; do nh <- into cm nh;
  do img <- backend n (box_val col0 (f_box i)) (box_val col1 (f_box i)) (box_val col2 (f_box i))
              (parts_of (avals nx) (avals ny) (avals nz) (op_vals m) (avals nh));
  do pic <- restored m norm (cube n) img;
  Ok (pic, stored).

(** Model of what the functions that make pictures do with regions that are empty or reversed:
    visualisation/_vistools.py, projection.py, slice.py and volume_render.py.

    FrontModel.v has these functions with real numbers, where a division by zero gives some number.  Here numbers can
    also be infinite or no number at all, as numpy's are, and conversions of those to integers fail.  Rounding is not
    modelled and neither is the sign of a zero.  The rest is as in FrontModel.v. *)
From Coq Require Import List ZArith Reals Bool.
From Verif Require Import Base VisModel RotModel HsmlModel FrontModel.
Import ListNotations.
Open Scope R_scope.

(** * Numbers *)

Inductive num : Type := Fin (x : R) | Inf (up : bool) | Nan.

(** [a / b] of numpy. *)
Definition ndiv (a b : num) : num :=
  match a, b with
  | Nan, _ | _, Nan | Inf _, Inf _ => Nan
  | Fin _, Inf _ => Fin 0
  | Inf up, Fin y => if Rlt_dec y 0 then Inf (negb up) else Inf up
  | Fin x, Fin y =>
      if Req_EM_T y 0
      then if Req_EM_T x 0 then Nan else if Rlt_dec 0 x then Inf true else Inf false
      else Fin (x / y)
  end.

(** [a * b] of numpy. *)
Definition sign_up (x : R) (up : bool) : bool := if Rlt_dec x 0 then negb up else up.
Definition nmul (a b : num) : num :=
  match a, b with
  | Nan, _ | _, Nan => Nan
  | Inf u, Inf v => Inf (Bool.eqb u v)
  | Fin x, Inf u | Inf u, Fin x => if Req_EM_T x 0 then Nan else Inf (sign_up x u)
  | Fin x, Fin y => Fin (x * y)
  end.

(** [a % b] of numpy. *)
Definition nmod (a b : num) : num :=
  match a, b with
  | Fin x, Fin y => if Req_EM_T y 0 then Nan else Fin (rmod x y)
  | Fin x, Inf up =>
      if Req_EM_T x 0 then Fin 0
      else if Bool.eqb up (if Rlt_dec 0 x then true else false) then Fin x else Inf up
  | _, _ => Nan
  end.

(** [int(np.ceil(a))]. *)
Definition int_ceil (a : num) : res Z :=
  match a with
  | Fin x => Ok (ceil x)
  | Inf _ => Err OverflowErr
  | Nan => Err ValueError
  end.

(** * Particles and pictures *)

Record npart : Type := mknpart { n_x : num; n_y : num; n_z : num; n_m : R; n_h : num }.
Definition nimage : Type := cell -> num.
Record npicture : Type := mknpicture { np_shape : shape; np_image : nimage }.

(** [_get_region_info] (_vistools.py lines 37-121); [boxsize / max_range] in numpy's numbers.  The field [i_box] of
    [region_info] is not used. *)
Definition nbox (periodic : bool) (box : vec) (mr : R) : num * num * num :=
  let '(lx, ly, lz) := box in
  if periodic then (ndiv (Fin lx) (Fin mr), ndiv (Fin ly) (Fin mr), ndiv (Fin lz) (Fin mr)) else (Fin 0, Fin 0, Fin 0).

Definition nrem_if (periodic : bool) (x l : num) : num := if periodic then nmod x l else x.

(** [backend_strip_and_restore_cosmo_and_units] (_vistools.py lines 175-264). *)
Definition nnormalise (a : R) (d : nat) (coords : bool) (frame : option bool) (norm : R) (img : nimage) : nimage :=
  fun c => ndiv (img c) (Fin match frame with Some f => convert a d coords f norm | None => 1 end).

(** ** projection.py lines 101-162 *)
Definition nnormed2 (periodic : bool) (i : info) (b : num * num * num) (p : part) : npart :=
  let '(bx, by_, _) := b in
  mknpart (nrem_if periodic (ndiv (Fin (p_x p - i_xmin i)) (Fin (i_max i))) bx)
          (nrem_if periodic (ndiv (Fin (p_y p - i_ymin i)) (Fin (i_max i))) by_)
          (Fin (p_z p)) (p_m p) (ndiv (Fin (p_h p)) (Fin (i_max i))).

(** Lines 151-156: [int(np.ceil(resolution * (x_range / max_range)))]. *)
Definition npixels (n : Z) (range mr : R) : res Z := int_ceil (nmul (Fin (IZR n)) (ndiv (Fin range) (Fin mr))).

Definition nproject (backend : Z -> num -> num -> list npart -> res nimage)
    (a : R) (coords : bool) (frame : option bool) (n : Z) (periodic : bool) (box : vec)
    (r : option region) (rotation : option (mat * vec)) (mask : option (list bool)) (ps : list part)
  : res (npicture * list part) :=
  do i <- region_info false periodic box r;
  do both <- placed periodic box rotation ps;
  let '(qs, stored) := both in
  do mask <- depth_mask periodic box i mask qs;
  do used <- pick mask qs;
  let b := nbox periodic box (i_max i) in
  do img <- backend n (fst (fst b)) (snd (fst b)) (map (nnormed2 periodic i b) used);
  let img := nnormalise a 2 coords frame (i_xrange i * i_yrange i) img in
  do xres <- npixels n (i_xrange i) (i_max i);
  do yres <- npixels n (i_yrange i) (i_max i);
  Ok (mknpicture [stop_index n xres; stop_index n yres] img, stored).

(** ** slice.py lines 104-154 with the backend "sph" *)

(** Lines 121-122: [int(np.ceil(resolution * x_range / max_range))]. *)
Definition npixels_slice (n : Z) (range mr : R) : res Z := int_ceil (ndiv (Fin (IZR n * range)) (Fin mr)).

Definition nnormed_slice (periodic : bool) (i : info) (b : num * num * num) (p : part) : npart :=
  let '(bx, by_, bz) := b in
  mknpart (nrem_if periodic (ndiv (Fin (p_x p - i_xmin i)) (Fin (i_max i))) bx)
          (nrem_if periodic (ndiv (Fin (p_y p - i_ymin i)) (Fin (i_max i))) by_)
          (nrem_if periodic (ndiv (Fin (p_z p)) (Fin (i_max i))) bz) (p_m p) (ndiv (Fin (p_h p)) (Fin (i_max i))).

(** slice_backends/sph.py 126-127 and 227: the image is a square that is trimmed; lines 316-339: the threads' images
    are added to an image of the trimmed shape, and [np.zeros] refuses negative lengths. *)
Definition slice_shape (parallel : bool) (xres yres : Z) : res shape :=
  if parallel
  then if (xres <? 0)%Z || (yres <? 0)%Z then Err ValueError else Ok [xres; yres]
  else let n := Z.max xres yres in Ok [stop_index n xres; stop_index n yres].

Definition nslice (backend : Z -> Z -> num -> num -> num -> num -> list npart -> res nimage) (parallel : bool)
    (a : R) (coords : bool) (frame : option bool) (n : Z) (z_slice : option R) (periodic : bool) (box : vec)
    (r : option region) (rotation : option (mat * vec)) (mask : option (list bool)) (ps : list part)
  : res (npicture * list part) :=
  let zs := match z_slice with Some z => z | None => 0 end in
  do i <- region_info false periodic box r;
  do both <- placed periodic box rotation ps;
  let '(qs, stored) := both in
  let zc := match rotation with Some (_, (_, _, c)) => c | None => 0 end in
  do xres <- npixels_slice n (i_xrange i) (i_max i);
  do yres <- npixels_slice n (i_yrange i) (i_max i);
  do used <- pick mask qs;
  let b := nbox periodic box (i_max i) in
  do s <- slice_shape parallel xres yres;
  do img <- backend xres yres (nrem_if periodic (ndiv (Fin (zs + zc)) (Fin (i_max i))) (snd b))
              (fst (fst b)) (snd (fst b)) (snd b) (map (nnormed_slice periodic i b) used);
  Ok (mknpicture s (nnormalise a 3 coords frame (i_max i ^ 3) img), stored).

(** ** volume_render.py lines 96-135 *)
Definition nnormed3 (periodic : bool) (i : info) (b : num * num * num) (p : part) : npart :=
  let '(bx, by_, bz) := b in
  mknpart (nrem_if periodic (ndiv (Fin (p_x p - i_xmin i)) (Fin (i_xrange i))) bx)
          (nrem_if periodic (ndiv (Fin (p_y p - i_ymin i)) (Fin (i_yrange i))) by_)
          (nrem_if periodic (ndiv (Fin (p_z p - i_zmin i)) (Fin (i_zrange i))) bz)
          (p_m p) (ndiv (Fin (p_h p)) (Fin (i_xrange i))).

Definition nvoxels (backend : Z -> num -> num -> num -> list npart -> res nimage)
    (a : R) (coords : bool) (frame : option bool) (n : Z) (periodic : bool) (box : vec)
    (r : option region) (rotation : option (mat * vec)) (mask : option (list bool)) (ps : list part)
  : res (npicture * list part) :=
  do i <- region_info true periodic box r;
  do both <- placed periodic box rotation ps;
  let '(qs, stored) := both in
  do used <- pick mask qs;
  let b := nbox periodic box (i_max i) in
  do img <- backend n (fst (fst b)) (snd (fst b)) (snd b) (map (nnormed3 periodic i b) used);
  Ok (mknpicture (cube n) (nnormalise a 3 coords frame (i_xrange i * i_yrange i * i_zrange i) img), stored).

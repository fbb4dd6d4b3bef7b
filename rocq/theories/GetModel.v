(** Model of what the functions that make pictures read from a dataset: visualisation/_vistools.py
    [_get_projection_field], smoothing_length/*.py [get_hsml], the dictionaries of backends, and
    [project_pixel_grid], [slice_pixel_grid], [render_voxel_grid] and the functions for gas from the
    arguments of the user on.  FrontModel.v has the pictures of particles.

    Numbers are real numbers and lengths are in one unit.  CUDA and scipy are there.  Arrays of one group
    that differ in length are refused (numba would stop at the shortest one), and so are weights that are
    no numbers, coordinates without a comoving flag and divisions by zero. *)
From Coq Require Import String List ZArith Reals Bool Ascii.
From Verif Require Import Base VisModel RotModel HsmlModel FrontModel.
Import ListNotations.
Open Scope R_scope.

(** * Objects with attributes *)

(** An array (its comoving flag and its rows, numbers are rows of one entry) or an object whose attributes
    are read when they are asked for. *)
Inductive obj :=
| OArray (comoving : option bool) (rows : list (list R))
| OGroup (attributes : list (string * res obj)).

Fixpoint lookup {A} (name : string) (l : list (string * A)) : option A :=
  match l with
  | [] => None
  | (n, a) :: rest => if String.eqb n name then Some a else lookup name rest
  end.

Definition getattr (o : obj) (name : string) : res obj :=
  match o with
  | OArray _ _ => Err AttributeError
  | OGroup l => match lookup name l with Some r => r | None => Err AttributeError end
  end.

(** [hasattr] reads the attribute; only an AttributeError means no. *)
Definition hasattr (o : obj) (name : string) : res bool :=
  match getattr o name with
  | Ok _ => Ok true
  | Err AttributeError => Ok false
  | Err e => Err e
  end.

(** [s.split(".")] *)
Fixpoint split_dots (s : string) : list string :=
  match s with
  | EmptyString => [EmptyString]
  | String c t =>
      if Ascii.eqb c "."%char then EmptyString :: split_dots t
      else match split_dots t with
           | w :: rest => String c w :: rest
           | [] => [String c EmptyString]
           end
  end.

(** [reduce(getattr, names, data)] *)
Fixpoint reduce_getattr (o : obj) (names : list string) : res obj :=
  match names with
  | [] => Ok o
  | n :: rest => do p <- getattr o n; reduce_getattr p rest
  end.

(** _vistools.py lines 12-35. *)
Definition projection_field (data : obj) (field_name : option string) : res obj :=
  match field_name with
  | None =>
      do ids <- getattr data "particle_ids";
      match ids with
      | OArray comoving rows => Ok (OArray comoving (map (map (fun _ => 1)) rows))
      | OGroup _ => Err TypeError
      end
  | Some name => reduce_getattr data (split_dots name)
  end.

(** * Arrays *)

Definition number (row : list R) : res R := match row with [v] => Ok v | _ => Err TypeError end.
Definition numbers (o : obj) : res (list R) :=
  match o with
  | OArray _ rows => all_ok (map number rows)
  | OGroup _ => Err TypeError
  end.
Definition point (row : list R) : res vec := match row with [x; y; z] => Ok (x, y, z) | _ => Err ValueError end.
Definition points (o : obj) : res (list vec) :=
  match o with
  | OArray _ rows => all_ok (map point rows)
  | OGroup _ => Err TypeError
  end.
Definition flag (o : obj) : option bool := match o with OArray c _ => c | OGroup _ => None end.

(** [np.cbrt] *)
Definition cbrt (x : R) : R :=
  if Req_EM_T x 0 then 0
  else if Rlt_dec x 0 then - Rpower (- x) (1 / 3) else Rpower x (1 / 3).

Definition divide (x y : R) : res R := if Req_EM_T y 0 then Err ZeroDivision else Ok (x / y).

(** * Smoothing lengths *)

(** smoothing_length/sph.py lines 7-30. *)
Definition get_hsml_sph (data : obj) : res (list R) :=
  do has <- hasattr data "smoothing_lengths";
  if has then do o <- getattr data "smoothing_lengths"; numbers o
  else
    do has <- hasattr data "smoothing_length";
    if has then do o <- getattr data "smoothing_length"; numbers o
    else Err AttributeError.

(** smoothing_length/nearest_neighbours.py lines 9-35. *)
Definition get_hsml_nearest (data : obj) : res (list R) :=
  do has <- hasattr data "volumes";
  if has then do o <- getattr data "volumes"; do v <- numbers o; Ok (map cbrt v)
  else
    do masses <- hasattr data "masses";
    do both <- (if masses then hasattr data "densities" else Ok false);
    if both then
      do m <- getattr data "masses"; do m <- numbers m;
      do d <- getattr data "densities"; do d <- numbers d;
      if Nat.eqb (List.length m) (List.length d)
      then do v <- all_ok (map (fun xy => divide (fst xy) (snd xy)) (combine m d)); Ok (map cbrt v)
      else Err ValueError
    else get_hsml_sph data.

(** [np.empty_like(data.masses)]: any numbers. *)
Definition get_hsml_histogram (junk : nat -> R) (data : obj) : res (list R) :=
  do m <- getattr data "masses"; do m <- numbers m;
  Ok (map junk (seq 0 (List.length m))).

(** smoothing_length/\_\_init\_\_.py *)
Definition backends_get_hsml (junk : nat -> R) (name : string) (data : obj) : res (list R) :=
  if String.eqb name "histogram" then get_hsml_histogram junk data
  else if String.eqb name "sph" then get_hsml_sph data
  else if String.eqb name "nearest_neighbours" then get_hsml_nearest data
  else Err KeyError.

(** * Backends by name *)

(** The number of threads, the order in which they finish, and the order of the GPU's threads. *)
Record schedule := mkschedule {
  s_threads : Z;
  s_order : list Z;
  s_gpu : R -> R -> list part -> list (Z * Z * Z)
}.

(** projection_backends/\_\_init\_\_.py *)
Definition projection_backend (s : schedule) (par : bool) (name : string) (n : Z) (bx by_ : R) (ps : list part) : res image :=
  let t := s_threads s in let o := s_order s in
  if String.eqb name "histogram" then if par then histogram_parallel n bx by_ ps t o else histogram n bx by_ ps
  else if String.eqb name "fast" then if par then fast_parallel n bx by_ ps t o else fast n bx by_ ps
  else if String.eqb name "renormalised" then if par then renormalised_parallel n bx by_ ps t o else renormalised n bx by_ ps
  else if String.eqb name "subsampled" then
    if par then subsampled_parallel 16 32 n bx by_ ps t o else subsampled 16 32 n bx by_ ps
  else if String.eqb name "subsampled_extreme" then
    if par then subsampled_parallel 32 64 n bx by_ ps t o else subsampled 32 64 n bx by_ ps
  else if String.eqb name "reference" then if par then reference_parallel n bx by_ ps t o else reference n bx by_ ps
  else if String.eqb name "gpu" then gpu n bx by_ ps (s_gpu s bx by_ ps)
  else Err KeyError.

(** slice_backends/\_\_init\_\_.py; the workers of the nearest-neighbour search give the same image. *)
Definition slice_backend (s : schedule) (par : bool) (name : string) (xres yres : Z) (zs bx by_ bz : R) (ps : list part)
  : res image :=
  if String.eqb name "sph" then
    if par then slice_parallel xres yres zs bx by_ bz ps (s_threads s) (s_order s)
    else slice_scatter xres yres zs bx by_ bz ps
  else if String.eqb name "nearest_neighbours" then nearest_slice xres yres zs (bx, by_, bz) ps
  else Err KeyError.

(** volume_render_backends/\_\_init\_\_.py *)
Definition volume_backend (s : schedule) (par : bool) (n : Z) (bx by_ bz : R) (ps : list part) : res image :=
  if par then volume_parallel n 1 bx by_ bz ps (s_threads s) (s_order s) else volume n bx by_ bz ps.

(** * The functions of the user *)

Record look := mklook {
  l_resolution : Z;
  l_project : option string;
  l_region : option region;
  l_mask : option (list bool);
  l_rotation : option (mat * vec);
  l_parallel : bool;
  l_backend : string;
  l_periodic : bool
}.

(** The particles a picture is made of, from the weights, the smoothing lengths and the coordinates. *)
Fixpoint particles (cs : list vec) (ms hs : list R) : res (list part) :=
  match cs, ms, hs with
  | [], [], [] => Ok []
  | (x, y, z) :: cs, m :: ms, h :: hs => do ps <- particles cs ms hs; Ok (mkpart x y z m h :: ps)
  | _, _, _ => Err ValueError
  end.
Definition comoving_flag (o : obj) : res bool := match flag o with Some b => Ok b | None => Err TypeError end.

Record read_data := mkread { rd_parts : list part; rd_coords : bool; rd_frame : option bool }.
(** The order of the reads: the weights, the region, the smoothing lengths, the coordinates. *)
Definition read_for (cubic : bool) (box : vec) (hsml : obj -> res (list R)) (data : obj) (l : look) : res read_data :=
  do m <- projection_field data (l_project l);
  do _ <- region_info cubic (l_periodic l) box (l_region l);
  do hs <- hsml data;
  do c <- getattr data "coordinates";
  do f <- comoving_flag c;
  do cs <- points c;
  do ms <- numbers m;
  do ps <- particles cs ms hs;
  Ok (mkread ps f (flag m)).

(** projection.py lines 101-162. *)
Definition project_pixel_grid (s : schedule) (junk : nat -> R) (a : R) (box : vec) (data : obj) (l : look)
  : res (picture * list part) :=
  let scheme := if String.eqb (l_backend l) "histogram" then "histogram"%string else "sph"%string in
  do r <- read_for false box (backends_get_hsml junk scheme) data l;
  project (projection_backend s (l_parallel l) (l_backend l)) a (rd_coords r) (rd_frame r)
    (l_resolution l) (l_periodic l) box (l_region l) (l_rotation l) (l_mask l) (rd_parts r).

(** slice.py lines 104-154. *)
Definition slice_pixel_grid (s : schedule) (junk : nat -> R) (a : R) (z_slice : option R) (box : vec) (data : obj) (l : look)
  : res (picture * list part) :=
  do r <- read_for false box (backends_get_hsml junk (l_backend l)) data l;
  slice_grid (slice_backend s (l_parallel l) (l_backend l)) a (rd_coords r) (rd_frame r)
    (l_resolution l) z_slice (l_periodic l) box (l_region l) (l_rotation l) (l_mask l) (rd_parts r).

(** volume_render.py lines 96-135. *)
Definition render_voxel_grid (s : schedule) (junk : nat -> R) (a : R) (box : vec) (data : obj) (l : look)
  : res (picture * list part) :=
  do r <- read_for true box (backends_get_hsml junk "sph") data l;
  voxel_grid (volume_backend s (l_parallel l)) a (rd_coords r) (rd_frame r)
    (l_resolution l) (l_periodic l) box (l_region l) (l_rotation l) (l_mask l) (rd_parts r).

(** projection.py lines 243-254, slice.py 248-260, volume_render.py 206-216. *)
Definition project_gas s junk a box (dataset : obj) (l : look) :=
  do g <- getattr dataset "gas"; project_pixel_grid s junk a box g l.
Definition slice_gas s junk a z_slice box (dataset : obj) (l : look) :=
  do g <- getattr dataset "gas"; slice_pixel_grid s junk a z_slice box g l.
Definition render_gas s junk a box (dataset : obj) (l : look) :=
  do g <- getattr dataset "gas"; render_voxel_grid s junk a box g l.

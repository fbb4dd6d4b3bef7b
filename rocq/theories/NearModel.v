(** Nearest-neighbour slices of datasets: slice.py with the backend of
    slice_backends/nearest_neighbours.py. *)
From Coq Require Import List ZArith Reals.
From Verif Require Import Base VisModel RotModel HsmlModel FrontModel.
Open Scope R_scope.

(** slice.py lines 138-153 with [backend="nearest_neighbours"]: the box comes as three
    arguments, which nearest_neighbours.py puts together.  The tree's query is
    [HsmlModel.nearest_slice]; ties go to the first particle there. *)
Definition nearest_backend (xres yres : Z) (zs bx by_ bz : R) (ps : list part) : res image :=
  nearest_slice xres yres zs (bx, by_, bz) ps.

(** [slice_pixel_grid(..., backend="nearest_neighbours")], slice.py lines 16-154. *)
Definition near_slice (a : R) (coords : bool) (frame : option bool) (n : Z) (z_slice : option R) (periodic : bool) (box : vec)
    (r : option region) (rotation : option (mat * vec)) (mask : option (list bool)) (ps : list part)
  : res (picture * list part) :=
  slice_grid nearest_backend a coords frame n z_slice periodic box r rotation mask ps.

(** Model of the functions that make pictures of a dataset: visualisation/_vistools.py,
    projection.py [project_pixel_grid], slice.py [slice_pixel_grid] and volume_render.py
    [render_voxel_grid].

    Numbers are real numbers, lengths are in one unit.  The field that is pictured is
    [p_m], the smoothing length [p_h] (backends_get_hsml is not modelled here), and both
    are already read.  The backend is an argument. *)
From Coq Require Import List ZArith Reals Bool.
From Verif Require Import Base VisModel RotModel HsmlModel.
Import ListNotations.
Open Scope R_scope.

(** A region of four or six numbers. *)
Record region := mkregion { r_xmin : R; r_xmax : R; r_ymin : R; r_ymax : R; r_z : option (R * R) }.

(** What [_get_region_info] returns, _vistools.py lines 37-121. *)
Record info := mkinfo {
  i_xmin : R; i_ymin : R; i_zmin : R; i_zmax : R;
  i_xrange : R; i_yrange : R; i_zrange : R; i_max : R;
  i_has_z : bool;
  i_box : vec
}.

(** [np.isclose(a, b)] *)
Definition isclose (a b : R) : bool :=
  if Rle_dec (Rabs (a - b)) (/ 100000000 + / 100000 * Rabs b) then true else false.

Definition region_info (require_cubic periodic : bool) (box : vec) (r : option region) : res info :=
  let '(lx, ly, lz) := box in
  let '(x0, x1, y0, y1, z0, z1, has) :=
    match r with
    | Some r => match r_z r with
                | Some (z0, z1) => (r_xmin r, r_xmax r, r_ymin r, r_ymax r, z0, z1, true)
                | None => (r_xmin r, r_xmax r, r_ymin r, r_ymax r, 0, lz, false)
                end
    | None => (0, lx, 0, ly, 0, lz, false)
    end in
  let mr := Rmax (x1 - x0) (y1 - y0) in
  if require_cubic && negb (isclose (x1 - x0) (y1 - y0) && isclose (x1 - x0) (z1 - z0))
  then Err AttributeError
  else Ok (mkinfo x0 y0 z0 z1 (x1 - x0) (y1 - y0) (z1 - z0) mr has
             (if periodic then (lx / mr, ly / mr, lz / mr) else (0, 0, 0))).

(** [_get_rotated_and_wrapped_coordinates], lines 124-172.  The second component is what
    the dataset holds afterwards: [coords %= boxsize] works on the dataset's own array. *)
Definition moved (p : part) (c : vec) : part :=
  let '(x, y, z) := c in mkpart x y z (p_m p) (p_h p).
Definition position (p : part) : vec := (p_x p, p_y p, p_z p).
Definition rem_point (box c : vec) : vec :=
  let '(lx, ly, lz) := box in let '(x, y, z) := c in (rmod x lx, rmod y ly, rmod z lz).
Definition placed (periodic : bool) (box : vec) (rotation : option (mat * vec)) (ps : list part)
  : res (list part * list part) :=
  match rotation, periodic with
  | Some _, true => Err ValueError
  | Some (matrix, center), false =>
      Ok (map (fun p => moved p (rotate matrix center (position p))) ps, ps)
  | None, true =>
      let qs := map (fun p => moved p (rem_point box (position p))) ps in Ok (qs, qs)
  | None, false => Ok (ps, ps)
  end.

(** [a[mask]] with an optional boolean mask. *)
Definition pick {A} (mask : option (list bool)) (l : list A) : res (list A) :=
  match mask with
  | None => Ok l
  | Some bs => if (zlen bs =? zlen l)%Z then Ok (map snd (filter fst (combine bs l))) else Err IndexError
  end.

(** projection.py lines 110-132: the depth mask.  (A boolean mask of one element, which
    numpy would broadcast, counts as a wrong length here.) *)
Definition leb (a b : R) : bool := if Rle_dec a b then true else false.
Definition in_depth (periodic : bool) (lz z0 z1 z : R) : bool :=
  if periodic
  then if leb (rmod z1 lz) (rmod z0 lz)
       then leb z (rmod z1 lz) || leb (rmod z0 lz) z
       else leb z (rmod z1 lz) && leb (rmod z0 lz) z
  else leb z z1 && leb z0 z.
Definition depth_mask (periodic : bool) (box : vec) (i : info) (mask : option (list bool)) (ps : list part)
  : res (option (list bool)) :=
  let '(_, _, lz) := box in
  if i_has_z i
  then if periodic && negb (leb (i_zrange i) lz) then Err ValueError
       else let zs := map (fun p => in_depth periodic lz (i_zmin i) (i_zmax i) (p_z p)) ps in
            match mask with
            | None => Ok (Some zs)
            | Some bs => if (zlen bs =? zlen zs)%Z
                         then Ok (Some (map (fun ab => fst ab && snd ab) (combine bs zs)))
                         else Err ValueError
            end
  else Ok mask.

(** [%=] on a normalised coordinate, if periodic. *)
Definition rem_if (periodic : bool) (x l : R) : R := if periodic then rmod x l else x.

(** [backend_strip_and_restore_cosmo_and_units], lines 175-264.  [frame] says whether the
    pictured field is comoving (None: it does not know), [coords] whether the coordinates
    are.  The normalised positions and lengths have no dimension, so converting them changes
    nothing.  The norm, a [d]-dimensional volume in the frame of the coordinates, is
    converted to the frame of the field with the scale factor [a]. *)
Definition convert (a : R) (d : nat) (coords frame : bool) (v : R) : R :=
  match coords, frame with
  | true, false => v * a ^ d
  | false, true => v / a ^ d
  | _, _ => v
  end.
Definition normalise (a : R) (d : nat) (coords : bool) (frame : option bool) (norm : R) (img : image) : image :=
  fun c => img c / match frame with
                   | Some f => convert a d coords f norm
                   | None => 1
                   end.

(** A picture: its shape and its values. *)
Record picture := mkpicture { pic_shape : shape; pic_image : image }.

(** [image[:stop]] on [n] entries. *)
Definition stop_index (n stop : Z) : Z := if (stop <? 0)%Z then Z.max 0 (n + stop) else Z.min stop n.

(** ** projection.py lines 101-162 *)
Definition normed2 (periodic : bool) (i : info) (p : part) : part :=
  let '(bx, by_, _) := i_box i in
  mkpart (rem_if periodic ((p_x p - i_xmin i) / i_max i) bx)
         (rem_if periodic ((p_y p - i_ymin i) / i_max i) by_)
         (p_z p) (p_m p) (p_h p / i_max i).
Definition pixels (n : Z) (range mr : R) : Z := ceil (IZR n * (range / mr)).

Definition project (backend : Z -> R -> R -> list part -> res image)
    (a : R) (coords : bool) (frame : option bool) (n : Z) (periodic : bool) (box : vec)
    (r : option region) (rotation : option (mat * vec)) (mask : option (list bool)) (ps : list part)
  : res (picture * list part) :=
  do i <- region_info false periodic box r;
  do both <- placed periodic box rotation ps;
  let '(qs, stored) := both in
  do mask <- depth_mask periodic box i mask qs;
  do used <- pick mask qs;
  let '(bx, by_, _) := i_box i in
  do img <- backend n bx by_ (map (normed2 periodic i) used);
  let img := normalise a 2 coords frame (i_xrange i * i_yrange i) img in
  Ok (mkpicture [stop_index n (pixels n (i_xrange i) (i_max i)); stop_index n (pixels n (i_yrange i) (i_max i))] img,
      stored).

(** ** slice.py lines 104-154 *)
Definition pixels_slice (n : Z) (range mr : R) : Z := ceil (IZR n * range / mr).
Definition normed_slice (periodic : bool) (i : info) (p : part) : part :=
  let '(bx, by_, bz) := i_box i in
  mkpart (rem_if periodic ((p_x p - i_xmin i) / i_max i) bx)
         (rem_if periodic ((p_y p - i_ymin i) / i_max i) by_)
         (rem_if periodic (p_z p / i_max i) bz) (p_m p) (p_h p / i_max i).

Definition slice_grid (backend : Z -> Z -> R -> R -> R -> R -> list part -> res image)
    (a : R) (coords : bool) (frame : option bool) (n : Z) (z_slice : option R) (periodic : bool) (box : vec)
    (r : option region) (rotation : option (mat * vec)) (mask : option (list bool)) (ps : list part)
  : res (picture * list part) :=
  let zs := match z_slice with Some z => z | None => 0 end in
  do i <- region_info false periodic box r;
  do both <- placed periodic box rotation ps;
  let '(qs, stored) := both in
  let zc := match rotation with Some (_, (_, _, c)) => c | None => 0 end in
  let xres := pixels_slice n (i_xrange i) (i_max i) in
  let yres := pixels_slice n (i_yrange i) (i_max i) in
  do used <- pick mask qs;
  let '(bx, by_, bz) := i_box i in
  do img <- backend xres yres (rem_if periodic ((zs + zc) / i_max i) bz) bx by_ bz
              (map (normed_slice periodic i) used);
  Ok (mkpicture [xres; yres] (normalise a 3 coords frame (i_max i ^ 3) img), stored).

(** ** volume_render.py lines 96-135 *)
Definition normed3 (periodic : bool) (i : info) (p : part) : part :=
  let '(bx, by_, bz) := i_box i in
  mkpart (rem_if periodic ((p_x p - i_xmin i) / i_xrange i) bx)
         (rem_if periodic ((p_y p - i_ymin i) / i_yrange i) by_)
         (rem_if periodic ((p_z p - i_zmin i) / i_zrange i) bz) (p_m p) (p_h p / i_xrange i).

Definition voxel_grid (backend : Z -> R -> R -> R -> list part -> res image)
    (a : R) (coords : bool) (frame : option bool) (n : Z) (periodic : bool) (box : vec)
    (r : option region) (rotation : option (mat * vec)) (mask : option (list bool)) (ps : list part)
  : res (picture * list part) :=
  do i <- region_info true periodic box r;
  do both <- placed periodic box rotation ps;
  let '(qs, stored) := both in
  do used <- pick mask qs;
  let '(bx, by_, bz) := i_box i in
  do img <- backend n bx by_ bz (map (normed3 periodic i) used);
  Ok (mkpicture (cube n) (normalise a 3 coords frame (i_xrange i * i_yrange i * i_zrange i) img), stored).

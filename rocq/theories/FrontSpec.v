(** Vocabulary for the statements about whole pictures, in the coordinates of the dataset. *)
From Coq Require Import List ZArith Reals Bool.
From Verif Require Import Base VisModel VisSpec RotModel FrontModel.
Import ListNotations.
Open Scope R_scope.

(** A periodic image of [z] is in the closed interval. *)
Definition image_in (L lo hi z : R) : Prop := exists k, lo <= z + IZR k * L <= hi.

(** Where a particle is drawn: at its rotated position if there is a rotation. *)
Definition seen (rotation : option (mat * vec)) (p : part) : vec :=
  match rotation with
  | Some (matrix, center) => rotate matrix center (position p)
  | None => position p
  end.
Definition at_x (c : vec) : R := fst (fst c).
Definition at_y (c : vec) : R := snd (fst c).
Definition at_z (c : vec) : R := snd c.

(** The particles a projection is of. *)
Definition wanted (periodic : bool) (Lz : R) (depth : option (R * R)) (z : R) : Prop :=
  match depth with
  | None => True
  | Some (lo, hi) => if periodic then image_in Lz lo hi z else lo <= z <= hi
  end.

(** The shifts [A] (whole box lengths) include all that take [x] to within [w] of the
    interval, each once.  Without periodicity only the particle itself counts. *)
Definition covers (periodic : bool) (L lo hi w x : R) (A : list Z) : Prop :=
  if periodic then NoDup A /\ forall k, lo - w <= x + IZR k * L <= hi + w -> In k A
  else A = [0%Z].

(** In the half-open interval of length [d] from [lo]. *)
Definition within_b (lo d x : R) : bool :=
  if Rle_dec lo x then if Rlt_dec x (lo + d) then true else false else false.

(** What a copy of a particle at (x, y) adds to the surface density of the pixel with lower
    corner (u, v) and side [d]. *)
Definition share2 (d : R) (p : part) (x y u v : R) : R :=
  if Rlt_dec (width2 p) d
  then (if within_b u d x && within_b v d y then p_m p / (d * d) else 0)
  else p_m p * W2 (dist2 (u + d / 2) (v + d / 2) x y) (width2 p).

(** The number of pixels of side [d] needed for a length. *)
Definition needed (len d : R) (k : Z) : Prop := (IZR k - 1) * d < len <= IZR k * d.

(** The row of pixels left out by slices and volumes (C41): the pixel from [u] on is
    [floor (1 + w / d)] above the one of the particle. *)
Definition upper (d w u x : R) : bool := (floor ((x - u) / d) + floor (1 + w / d) =? 0)%Z.

(** What a copy at (x, y, z) adds to the density in the slice at height [t]. *)
Definition share_slice (d t : R) (p : part) (x y z u v : R) : R :=
  if upper d (width3 p) u x || upper d (width3 p) v y then 0
  else p_m p * W3 (dist3 (u + d / 2) (v + d / 2) t x y z) (width3 p).

(** What it adds to the density of the voxel with lower corner (u, v, t). *)
Definition share_voxel (d : R) (p : part) (x y z u v t : R) : R :=
  if Rlt_dec (width3 p) (d / 2)
  then (if within_b u d x && within_b v d y && within_b t d z then p_m p / (d * d * d) else 0)
  else if upper d (width3 p) u x || upper d (width3 p) v y || upper d (width3 p) t z then 0
  else p_m p * W3 (dist3 (u + d / 2) (v + d / 2) (t + d / 2) x y z) (width3 p).

(** A sum over the copies of a particle. *)
Definition over2 (A B : list Z) (f : R -> R -> R) : R :=
  sumR (map (fun a => sumR (map (fun b => f (IZR a) (IZR b)) B)) A).
Definition over3 (A B C : list Z) (f : R -> R -> R -> R) : R :=
  sumR (map (fun a => sumR (map (fun b => sumR (map (fun c => f (IZR a) (IZR b) (IZR c)) C)) B)) A).

(** The sum over the pixels of a picture of [rows] times [cols]. *)
Definition total (rows cols : Z) (img : image) : R :=
  sumR (map (fun i => sumR (map (fun j => img [i; j]) (zrange 0 cols))) (zrange 0 rows)).

(** The picture of a result. *)
Definition drawn (r : res (picture * list part)) : res picture := do ps <- r; Ok (fst ps).
(** A region without its depth. *)
Definition flat (r : region) : region := mkregion (r_xmin r) (r_xmax r) (r_ymin r) (r_ymax r) None.
Definition x_extent (r : region) : R := r_xmax r - r_xmin r.
Definition y_extent (r : region) : R := r_ymax r - r_ymin r.
Definition extent (r : region) : R := Rmax (x_extent r) (y_extent r).

(** The factor from lengths in one frame to lengths in another, for a scale factor. *)
Definition length_factor (a : R) (from to : bool) : R :=
  if from then (if to then 1 else a) else (if to then / a else 1).

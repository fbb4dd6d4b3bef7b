(** Specification vocabulary for pictures of empty and reversed regions. *)
From Coq Require Import List ZArith Reals Bool.
From Verif Require Import Base VisModel FrontModel DegenModel.
Import ListNotations.
Open Scope R_scope.

(** The sides of a region, or of the box. *)
Definition side_x (box : R * R * R) (r : option region) : R :=
  match r with Some r => r_xmax r - r_xmin r | None => fst (fst box) end.
Definition side_y (box : R * R * R) (r : option region) : R :=
  match r with Some r => r_ymax r - r_ymin r | None => snd (fst box) end.
Definition side_z (box : R * R * R) (r : option region) : R :=
  match r with
  | Some r => match r_z r with Some (z0, z1) => z1 - z0 | None => snd box end
  | None => snd box
  end.

(** A box with an extent along each axis. *)
Definition full_box (box : R * R * R) : Prop := let '(lx, ly, lz) := box in lx <> 0 /\ ly <> 0 /\ lz <> 0.

(** A region without extent: none of its sides in the plane is longer than nothing. *)
Definition empty_region (box : R * R * R) (r : option region) : Prop :=
  side_x box r <= 0 /\ side_y box r <= 0 /\ (side_x box r = 0 \/ side_y box r = 0).

(** A particle and an image of plain numbers. *)
Definition plain (p : part) : npart := mknpart (Fin (p_x p)) (Fin (p_y p)) (Fin (p_z p)) (p_m p) (Fin (p_h p)).
Definition plain_image (f : image) : nimage := fun c => Fin (f c).
Definition plain_result (r : res image) : res nimage :=
  match r with Ok f => Ok (plain_image f) | Err e => Err e end.

(** A backend that does with plain numbers what [b] does. *)
Definition extends2 (nb : Z -> num -> num -> list npart -> res nimage) (b : Z -> R -> R -> list part -> res image) : Prop :=
  forall n bx by_ ps, nb n (Fin bx) (Fin by_) (map plain ps) = plain_result (b n bx by_ ps).
Definition extends_slice (nb : Z -> Z -> num -> num -> num -> num -> list npart -> res nimage)
    (b : Z -> Z -> R -> R -> R -> R -> list part -> res image) : Prop :=
  forall xres yres zs bx by_ bz ps,
    nb xres yres (Fin zs) (Fin bx) (Fin by_) (Fin bz) (map plain ps) = plain_result (b xres yres zs bx by_ bz ps).
Definition extends3 (nb : Z -> num -> num -> num -> list npart -> res nimage)
    (b : Z -> R -> R -> R -> list part -> res image) : Prop :=
  forall n bx by_ bz ps, nb n (Fin bx) (Fin by_) (Fin bz) (map plain ps) = plain_result (b n bx by_ bz ps).


(** A pixel of a picture. *)
Definition pixel_of (s : shape) (c : cell) : Prop := Forall2 (fun n i => 0 <= i < n)%Z s c.

(** The same outcome: the same error, or pictures of the same shape with the same pixels. *)
Definition same_picture (x : res (npicture * list part)) (y : res (picture * list part)) : Prop :=
  match x, y with
  | Err e, Err e' => e = e'
  | Ok (p, l), Ok (q, l') =>
      l = l' /\ np_shape p = pic_shape q /\ forall c, pixel_of (np_shape p) c -> np_image p c = Fin (pic_image q c)
  | _, _ => False
  end.

Definition finite (x : num) : Prop := exists r, x = Fin r.
Definition fails {A} (r : res A) : Prop := exists e, r = Err e.

(** A mask that fits the particles. *)
Definition mask_fits (mask : option (list bool)) (ps : list part) : Prop :=
  match mask with Some bs => length bs = length ps | None => True end.

(** Vocabulary for the reference and the subsampled projections. *)
From Coq Require Import List ZArith Reals Bool.
From Verif Require Import Base VisModel VisSpec.
Import ListNotations.
Open Scope R_scope.

Definition least (a b : R) : bool := if Rle_dec a b then true else false.
(** The sum over a square of indices. *)
Definition square_sum (k : Z) (f : Z -> Z -> R) : R :=
  sumR (map (fun a => sumR (map (fun b => f a b) (zrange 0 k))) (zrange 0 k)).

(** What one copy at (x, y) adds to pixel (i, j) of the reference projection: the kernel at
    the centre of the pixel, and nothing at all for kernels narrower than two pixels. *)
Definition resolved2 (n : Z) (p : part) (x y : R) (i j : Z) : R :=
  if Rlt_dec (width2 p * IZR n) 2 then 0
  else p_m p * W2 (dist2 (centre n i) (centre n j) x y) (width2 p).

(** [f * f] evenly spaced points in pixel (i, j), and the mean of the kernel over them. *)
Definition point (n f i a : Z) : R := (IZR i + (IZR a + 1 / 2) / IZR f) / IZR n.
Definition mean2 (n f : Z) (p : part) (x y : R) (i j : Z) : R :=
  square_sum f (fun a b => W2 (dist2 (point n f i a) (point n f j b) x y) (width2 p)) / (IZR f * IZR f).
(** Twice the least number of points of which one row over the kernel has [evals]. *)
Definition enough_points (evals n : Z) (w : R) (f : Z) : Prop :=
  exists k, f = (2 * k)%Z /\ IZR evals <= IZR k * (1 + w * IZR n) /\
            (IZR k - 1) * (1 + w * IZR n) < IZR evals.

(** A kernel of radius [d] cut into unit squares: the share of square (a, b). *)
Definition share (d a b : Z) : R := W2 (dist2 (IZR a + 1 / 2) (IZR b + 1 / 2) (IZR d) (IZR d)) (IZR d).
Definition fraction (d a b : Z) : R := share d a b / square_sum (2 * d) (share d).
(** Where the square is put for a particle at x with kernel radius w. *)
Definition crumb (d : Z) (w x : R) (a : Z) : R := x + (IZR a / IZR d - 1) * w.
(** The distance to the lower side of the own pixel and what is taken as the distance to
    the upper side, one minus the former, are not below the kernel radius. *)
Definition clear (n : Z) (w x : R) : bool :=
  let low := x - IZR (floor (IZR n * x)) / IZR n in least w low && least w (1 - low).

(** What one copy adds to pixel (i, j) of the subsampled projection. *)
Definition crumbs2 (n d : Z) (p : part) (x y : R) (i j : Z) : R :=
  square_sum (2 * d) (fun a b =>
    if in_pixelb n i (crumb d (width2 p) x a) && in_pixelb n j (crumb d (width2 p) y b)
    then p_m p * (IZR n * IZR n) * fraction d a b else 0).
Definition sampled2 (n d : Z) (f : part -> Z) (p : part) (x y : R) (i j : Z) : R :=
  if Rle_dec (width2 p * IZR n) (1 / 4)
  then (if unitb x && unitb y && clear n (width2 p) x && clear n (width2 p) y
        then (if in_pixelb n i x && in_pixelb n j y then p_m p * (IZR n * IZR n) else 0)
        else crumbs2 n d p x y i j)
  else p_m p * mean2 n (f p) p x y i j.

(** A particle in the unit square whose kernel is at most a quarter of a pixel. *)
Definition tiny (n : Z) (p : part) : Prop :=
  0 <= p_h p /\ width2 p * IZR n <= 1 / 4 /\ 0 <= p_x p < 1 /\ 0 <= p_y p < 1.

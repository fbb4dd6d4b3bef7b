(** Vocabulary for the statements about images. *)
From Coq Require Import List ZArith Reals Bool.
From Verif Require Import Base VisModel.
Import ListNotations.
Open Scope R_scope.

(** Pixel [i] of [n] covers [i/n, (i+1)/n). *)
Definition in_pixel (n i : Z) (x : R) : Prop := IZR i <= IZR n * x < IZR i + 1.
Definition in_pixelb (n i : Z) (x : R) : bool :=
  if Rle_dec (IZR i) (IZR n * x) then if Rlt_dec (IZR n * x) (IZR i + 1) then true else false else false.
Definition centre (n i : Z) : R := (IZR i + 1 / 2) / IZR n.
Definition dist2 (x y u v : R) : R := sqrt ((x - u) * (x - u) + (y - v) * (y - v)).
Definition dist3 (x y z u v w : R) : R :=
  sqrt ((x - u) * (x - u) + (y - v) * (y - v) + (z - w) * (z - w)).

(** All periodic copies up to the [N]-th on each side; one without periodicity. *)
Definition all_copies (box : R) (N : Z) : list Z :=
  if Req_EM_T box 0 then [0%Z] else zrange (- N) (N + 1).
(** The first [N] copies cover the image. *)
Definition enough (box : R) (N : Z) : Prop := box = 0 \/ (1 <= N)%Z /\ 1 <= IZR N * box.
(** A coordinate in a periodic box (or no box), and a kernel no wider than the box. *)
Definition wrapped (box x : R) : Prop := box = 0 \/ 0 <= x <= box.
Definition fits (box w : R) : Prop := box = 0 \/ w <= box.

(** The sum of [f] over the copies of all particles. *)
Definition sum_copies2 (box_x box_y : R) (N : Z) (ps : list part) (f : part -> R -> R -> R) : R :=
  sumR (map (fun p => sumR (map (fun a => sumR (map (fun b =>
    f p (p_x p + IZR a * box_x) (p_y p + IZR b * box_y))
    (all_copies box_y N))) (all_copies box_x N))) ps).
Definition sum_copies3 (box_x box_y box_z : R) (N : Z) (ps : list part) (f : part -> R -> R -> R -> R) : R :=
  sumR (map (fun p => sumR (map (fun a => sumR (map (fun b => sumR (map (fun c =>
    f p (p_x p + IZR a * box_x) (p_y p + IZR b * box_y) (p_z p + IZR c * box_z))
    (all_copies box_z N))) (all_copies box_y N))) (all_copies box_x N))) ps).

(** The sum of all pixels. *)
Definition total2 (n : Z) (img : image) : R :=
  sumR (map (fun i => sumR (map (fun j => img [i; j]) (zrange 0 n))) (zrange 0 n)).
Definition total3 (n : Z) (img : image) : R :=
  sumR (map (fun i => sumR (map (fun j => sumR (map (fun k => img [i; j; k]) (zrange 0 n)))
                                (zrange 0 n))) (zrange 0 n)).

(** Equal images. *)
Definition same_image (s : shape) (a b : image) : Prop := forall c, in_bounds s c = true -> a c = b c.

(** The Wendland C2 kernel in two and three dimensions, zero outside its radius [H]. *)
Definition wendland (r H : R) : R :=
  if Rlt_dec r H then (1 - r / H) ^ 4 * (1 + 4 * (r / H)) else 0.
Definition W2 (r H : R) : R := 222817109 / 100000000 / H ^ 2 * wendland r H.
Definition W3 (r H : R) : R := 21 * (31830988618379067154 / 100000000000000000000) / 2 / H ^ 3 * wendland r H.
(** The kernel radius of a smoothing length. *)
Definition width2 (p : part) : R := 1897367 / 1000000 * p_h p.
Definition width3 (p : part) : R := 1936492 / 1000000 * p_h p.

(** A particle in a periodic box that its kernel fits in. *)
Definition settled2 (box_x box_y : R) (p : part) : Prop :=
  0 <= p_h p /\ wrapped box_x (p_x p) /\ wrapped box_y (p_y p) /\
  fits box_x (width2 p) /\ fits box_y (width2 p).
Definition settled3 (box_x box_y box_z : R) (p : part) : Prop :=
  0 <= p_h p /\ wrapped box_x (p_x p) /\ wrapped box_y (p_y p) /\ wrapped box_z (p_z p) /\
  fits box_x (width3 p) /\ fits box_y (width3 p) /\ fits box_z (width3 p).

(** What one copy at (x, y) adds to pixel (i, j): all of its mass to its own pixel if the
    kernel is narrower than a pixel, the kernel at the centre of the pixel otherwise. *)
Definition deposit2 (n : Z) (p : part) (x y : R) (i j : Z) : R :=
  if Rlt_dec (width2 p * IZR n) 1
  then (if in_pixelb n i x && in_pixelb n j y then p_m p * (IZR n * IZR n) else 0)
  else p_m p * W2 (dist2 (centre n i) (centre n j) x y) (width2 p).

(** The pixel [floor (1 + w n)] above the one of the particle. *)
Definition above (n : Z) (w x : R) (i : Z) : bool := (i =? floor (IZR n * x) + floor (1 + w * IZR n))%Z.

(** The unit interval. *)
Definition unitb (x : R) : bool := if Rle_dec 0 x then if Rlt_dec x 1 then true else false else false.

(** The kernel summed over the square of pixels [c - r .. c + r] around the particle. *)
Definition weights (n : Z) (p : part) (r : Z) : R :=
  let cx := floor (IZR n * p_x p) in let cy := floor (IZR n * p_y p) in
  sumR (map (fun i => sumR (map (fun j => W2 (dist2 (centre n i) (centre n j) (p_x p) (p_y p)) (width2 p))
                                (zrange (cy - r) (cy + r + 1)))) (zrange (cx - r) (cx + r + 1))).
Definition spans (n : Z) (w : R) : Z := floor (1 + w * IZR n).
(** All pixels up to [spans] away are in the image. *)
Definition interior (n : Z) (w x : R) : Prop :=
  (spans n w <= floor (IZR n * x))%Z /\ (floor (IZR n * x) + spans n w < n)%Z.

(** The additions of several threads woven into one sequence in any way that keeps the order
    within every thread. *)
Inductive woven {A : Type} : list (list A) -> list A -> Prop :=
| woven_done : forall threads, Forall (fun t => t = []) threads -> woven threads []
| woven_next : forall before x t after all, woven (before ++ t :: after) all ->
    woven (before ++ (x :: t) :: after) (x :: all).

(** Vocabulary for nearest-neighbour slices of datasets loaded with a mask. *)
From Coq Require Import List ZArith Reals.
From Verif Require Import Base VisModel VisSpec RotModel FrontModel FrontSpec NearSpec.
Import ListNotations.
Open Scope R_scope.

(** The pixel exists in a picture of the region, [n] pixels along its longer side; its middle. *)
Definition pixel (r : region) (n i j : Z) : Prop :=
  let d := extent r / IZR n in
  (0 <= i)%Z /\ (0 <= j)%Z /\ IZR i * d < x_extent r /\ IZR j * d < y_extent r.
Definition middle_x (r : region) (n i : Z) : R := r_xmin r + (IZR i + / 2) * (extent r / IZR n).
Definition middle_y (r : region) (n j : Z) : R := r_ymin r + (IZR j + / 2) * (extent r / IZR n).

(** A copy of the particle is at most [w] away from the middle of a pixel. *)
Definition close (periodic : bool) (box : vec) (rotation : option (mat * vec)) (r : region) (n : Z) (t w : R) (i j : Z) (p : part) : Prop :=
  exists a b c, counted periodic a b c /\ away box rotation (middle_x r n i) (middle_y r n j) t p a b c <= w.
Definition close_to_some (periodic : bool) (box : vec) (rotation : option (mat * vec)) (r : region) (n : Z) (t w : R) (p : part) : Prop :=
  exists i j, pixel r n i j /\ close periodic box rotation r n t w i j p.

(** No two particles of different values are equally near to the middle of a pixel, and nearest. *)
Definition settled (periodic : bool) (box : vec) (rotation : option (mat * vec)) (r : region) (n : Z) (t : R) (ps : list part) : Prop :=
  forall i j p q, pixel r n i j ->
    nearest_to periodic box rotation (middle_x r n i) (middle_y r n j) t ps p ->
    nearest_to periodic box rotation (middle_x r n i) (middle_y r n j) t ps q ->
    p_m p / p_h p ^ 3 = p_m q / p_h q ^ 3.

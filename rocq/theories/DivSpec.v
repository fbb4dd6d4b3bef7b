(** Specification of what divides by zero in a slice. *)
From Coq Require Import List ZArith Reals.
From Verif Require Import Base VisModel.
Import ListNotations.
Open Scope R_scope.

(** The periodic copies of a position: the position itself without a box, else one box below up to above one. *)
Definition copy_of (box x x' : R) : Prop :=
  (box = 0 /\ x' = x) \/ (box <> 0 /\ exists i : Z, (-1 <= i)%Z /\ IZR i < 1 / box + 1 /\ x' = x + IZR i * box).

(** A particle without extent that lies exactly in the slice and within the image or less than a pixel beyond its
    upper edges. *)
Definition point_in_slice (n : Z) (z_slice bx by_ bz : R) (p : part) : Prop :=
  p_h p = 0 /\ exists x y z, copy_of bx (p_x p) x /\ copy_of by_ (p_y p) y /\ copy_of bz (p_z p) z
               /\ z = z_slice /\ 0 <= x < 1 + 1 / IZR n /\ 0 <= y < 1 + 1 / IZR n.

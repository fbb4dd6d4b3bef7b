(** Vocabulary for images of a part of the particles. *)
From Coq Require Import List ZArith Reals Bool.
From Verif Require Import Base VisModel VisSpec.
Import ListNotations.
Open Scope R_scope.

(** Within [w] of the image, which is the unit interval along each axis. *)
Definition touches (w x : R) : Prop := - w <= x <= 1 + w.

(** A periodic copy of the particle is within [w] of the image. *)
Definition seen2 (box_x box_y w : R) (p : part) : Prop :=
  exists a b : Z, touches w (p_x p + IZR a * box_x) /\ touches w (p_y p + IZR b * box_y).
(** The same for a slice at [zs]... *)
Definition seen_slice (zs box_x box_y box_z w : R) (p : part) : Prop :=
  exists a b c : Z, touches w (p_x p + IZR a * box_x) /\ touches w (p_y p + IZR b * box_y)
    /\ - w <= p_z p + IZR c * box_z - zs <= w.
(** ... and for a volume. *)
Definition seen3 (box_x box_y box_z w : R) (p : part) : Prop :=
  exists a b c : Z, touches w (p_x p + IZR a * box_x) /\ touches w (p_y p + IZR b * box_y)
    /\ touches w (p_z p + IZR c * box_z).

(** [qs] is [ps] without some of the particles that are not seen. *)
Inductive without {A} (seen : A -> Prop) : list A -> list A -> Prop :=
| without_nil : without seen [] []
| without_kept p ps qs : without seen ps qs -> without seen (p :: ps) (p :: qs)
| without_left p ps qs : ~ seen p -> without seen ps qs -> without seen (p :: ps) qs.

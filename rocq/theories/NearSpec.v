(** Specification vocabulary for nearest-neighbour slices of datasets. *)
From Coq Require Import List ZArith Reals Bool.
From Verif Require Import Base VisModel VisSpec RotModel FrontModel FrontSpec.
Import ListNotations.
Open Scope R_scope.

(** The particles that a mask keeps. *)
Inductive kept : list bool -> list part -> list part -> Prop :=
| kept_none : kept [] [] []
| kept_this : forall p bs ps l, kept bs ps l -> kept (true :: bs) (p :: ps) (p :: l)
| kept_not : forall p bs ps l, kept bs ps l -> kept (false :: bs) (p :: ps) l.
Definition chosen (mask : option (list bool)) (ps l : list part) : Prop :=
  match mask with None => l = ps | Some bs => kept bs ps l end.

(** Copies of the box that count. *)
Definition counted (periodic : bool) (a b c : Z) : Prop := periodic = true \/ (a = 0 /\ b = 0 /\ c = 0)%Z.

(** How far a copy of a particle, where it is seen, is from a point. *)
Definition away (box : vec) (rotation : option (mat * vec)) (u v t : R) (p : part) (a b c : Z) : R :=
  let '(lx, ly, lz) := box in
  dist3 u v t (at_x (seen rotation p) + IZR a * lx) (at_y (seen rotation p) + IZR b * ly) (at_z (seen rotation p) + IZR c * lz).

(** A particle with a copy that is nearest to a point. *)
Definition nearest_to (periodic : bool) (box : vec) (rotation : option (mat * vec)) (u v t : R) (ps : list part) (p : part) : Prop :=
  In p ps /\ exists a b c, counted periodic a b c /\ forall q a' b' c', In q ps -> counted periodic a' b' c' ->
    away box rotation u v t p a b c <= away box rotation u v t q a' b' c'.

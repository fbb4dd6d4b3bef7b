(** Vocabulary for the directions of a rotation matrix. *)
From Coq Require Import String Reals.
From Verif Require Import RotModel.
Open Scope R_scope.

Definition an_axis (axis : string) : Prop := (axis = "x" \/ axis = "y" \/ axis = "z")%string.
(** The length of a vector, its part along an axis, and its part across, turned by a right angle around the axis. *)
Definition len (v : vec) : R := let '(x, y, z) := v in sqrt (x * x + y * y + z * z).
Definition along (axis : string) (v : vec) : R :=
  let '(x, y, z) := v in if String.eqb axis "x" then x else if String.eqb axis "y" then y else z.
Definition across (axis : string) (v : vec) : vec :=
  let '(x, y, z) := v in
  if String.eqb axis "x" then (0, - z, y) else if String.eqb axis "y" then (z, 0, - x) else (- y, x, 0).
Definition shrunk (v : vec) (n : R) : vec := let '(x, y, z) := v in (x / n, y / n, z / n).

(** The angle between the vector and the axis, and the vector to turn around. *)
Definition sine (axis : string) (v : vec) : R := len (across axis v) / len v.
Definition cosine_of (axis : string) (v : vec) : R := along axis v / len v.
Definition pivot (axis : string) (v : vec) : vec := shrunk (across axis v) (len (across axis v)).

Definition relative (e x y : R) : Prop := Rabs (x - y) <= e * Rabs y.

(** Vocabulary for sums of pixels. *)
From Coq Require Import List ZArith Reals.
Import ListNotations.
Open Scope R_scope.

(** The sum of [g v] over what is written to the pixel [c], and how often it is written to. *)
Fixpoint summed (g : R -> R) (c : list Z) (ws : list (list Z * R)) : R :=
  match ws with
  | [] => 0
  | (d, v) :: t => (if list_eq_dec Z.eq_dec d c then g v else 0) + summed g c t
  end.
Fixpoint times (c : list Z) (ws : list (list Z * R)) : nat :=
  match ws with
  | [] => O
  | (d, _) :: t => if list_eq_dec Z.eq_dec d c then S (times c t) else times c t
  end.

(** [x] is [y] up to [k] roundings of relative size [u], each of numbers up to [size]. *)
Definition within_roundings (u : R) (k : nat) (size x y : R) : Prop := Rabs (x - y) <= ((1 + u) ^ k - 1) * size.

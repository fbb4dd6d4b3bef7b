(** The directions of a rotation matrix in any arithmetic.

    visualisation/rotation.py lines 31-68, [rotation_matrix_from_vector] up to the matrix of the cross product, with the
    operations of an [arith] (RoundModel.v), so that rounding, overflow and NaN are part of the model (RotModel.v has real
    numbers).  [np.linalg.norm] is the root of the product of the vector with itself; the order in which products are
    added is not documented and is an argument ([TurnModel.order]).  [np.sin], [np.arccos] and [np.linalg.inv] of lines
    59-72 and units are left out. *)
From Coq Require Import String QArith.
From Verif Require Import Base RoundModel TurnModel.

Section Aim.
Variable A : arith.
Notation F := (num A).

(** [np.linalg.norm] *)
Definition fnorm (o : order) (v : fvec A) : F := root A (row_product A o v v).
(** A vector divided by a number. *)
Definition over (v : fvec A) (n : F) : fvec A := let '(v0, v1, v2) := v in (div A v0 n, div A v1 n, div A v2 n).
(** [np.cross] *)
Definition fcross (a b : fvec A) : fvec A :=
  let '(a0, a1, a2) := a in let '(b0, b1, b2) := b in
  (sub A (mul A a1 b2) (mul A a2 b1), sub A (mul A a2 b0) (mul A a0 b2), sub A (mul A a0 b1) (mul A a1 b0)).

(** Lines 36-44: a vector of zeros with a one. *)
Definition unit3 (axis : string) : res (fvec A) :=
  let zero := of_int A 0 in let one := of_int A 1 in
  if String.eqb axis "x" then Ok (one, zero, zero)
  else if String.eqb axis "y" then Ok (zero, one, zero)
  else if String.eqb axis "z" then Ok (zero, zero, one)
  else Err ValueError.

(** What is returned: the matrix that flips the axis (lines 50-56), or the one made of a unit vector (the skew matrix of
    lines 62-68) and a cosine. *)
Inductive aim := Flip | Turn (k : fvec A) (cosine : F).

Definition look_down (os : order * order * order) (vector : fvec A) (axis : string) : res aim :=
  let '(o0, o1, o2) := os in
  let normed := over vector (fnorm o0 vector) in
  do e <- unit3 axis;
  let c := fcross e normed in
  let m := fnorm o1 c in
  if less_eq A m (lit A (1 # 1000000)) then Ok Flip
  else Ok (Turn (over c m) (row_product A o2 e normed)).
End Aim.
Arguments Flip {A}.
Arguments Turn {A}.

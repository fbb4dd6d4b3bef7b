(** The numbers of pixels of projections and slices, in any arithmetic.

    visualisation/projection.py lines 153-162 and slice.py lines 119-121 with the operations of an [arith]
    (RoundModel.v).  [n] is the resolution, a Python integer. *)
From Coq Require Import ZArith.
From Verif Require Import Base RoundModel.

Section Rows.
Variable A : arith.
Notation F := (num A).

(** projection.py lines 154-159: [int(np.ceil(resolution * (x_range / max_range)))]. *)
Definition rows_projection (n : Z) (range extent : F) : Z := int A (ceil A (mul A (of_int A n) (div A range extent))).
(** slice.py lines 120-121: [int(np.ceil(resolution * x_range / max_range))]. *)
Definition rows_slice (n : Z) (range extent : F) : Z := int A (ceil A (div A (mul A (of_int A n) range) extent)).
(** _vistools.py lines 90-93: the extent is the larger one of the ranges. *)
Definition larger_range (x0 x1 y0 y1 : F) : F * F * F :=
  let x := sub A x1 x0 in let y := sub A y1 y0 in (x, y, larger A x y).
(** projection.py line 162: the image has [n] times [n] pixels and is cut. *)
Definition cut (n rows : Z) : Z := if (rows <? 0)%Z then Z.max 0 (n + rows) else Z.min rows n.
Definition shape_projection (n : Z) (x0 x1 y0 y1 : F) : Z * Z :=
  let '(x, y, m) := larger_range x0 x1 y0 y1 in (cut n (rows_projection n x m), cut n (rows_projection n y m)).
Definition shape_slice (n : Z) (x0 x1 y0 y1 : F) : Z * Z :=
  let '(x, y, m) := larger_range x0 x1 y0 y1 in (rows_slice n x m, rows_slice n y m).
End Rows.

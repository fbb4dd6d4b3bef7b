(** Rotated coordinates in any arithmetic.

    visualisation/_vistools.py lines 158-167 with the operations of an [arith] (RoundModel.v), so that rounding is part
    of the model.  Units and frames are left out (C120, C122).  [np.matmul] adds three products for every coordinate; in
    which order is not documented, so the order is an argument of the model.  A library that rounds a product and a sum
    once (a fused multiplication) is not modelled. *)
From Verif Require Import RoundModel.

(** Which two of the three products are added first. *)
Inductive order := First_two | Last_two | Outer_two.

Section Turn.
Variable A : arith.
Notation F := (num A).
Definition fvec : Type := (F * F * F)%type.
Definition fmat : Type := (fvec * fvec * fvec)%type.

Definition sum3 (o : order) (a b c : F) : F :=
  match o with
  | First_two => add A (add A a b) c
  | Last_two => add A a (add A b c)
  | Outer_two => add A (add A a c) b
  end.

(** One row of [np.matmul(rotation_matrix, ...)]. *)
Definition row_product (o : order) (row d : fvec) : F :=
  let '(r0, r1, r2) := row in let '(d0, d1, d2) := d in sum3 o (mul A r0 d0) (mul A r1 d1) (mul A r2 d2).

(** [np.matmul(rotation_matrix, (coordinates - rotation_center).T).T + rotation_center] for one particle. *)
Definition turned (os : order * order * order) (matrix : fmat) (center x : fvec) : fvec :=
  let '(o0, o1, o2) := os in let '(m0, m1, m2) := matrix in
  let '(c0, c1, c2) := center in let '(x0, x1, x2) := x in
  let d := (sub A x0 c0, sub A x1 c1, sub A x2 c2) in
  (add A (row_product o0 m0 d) c0, add A (row_product o1 m1 d) c1, add A (row_product o2 m2 d) c2).
End Turn.

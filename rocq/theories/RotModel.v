(** Model of visualisation/rotation.py and of the rotation of coordinates in
    visualisation/_vistools.py.

    Vectors and matrices of real numbers; [np.linalg.inv] is the exact inverse
    (adjugate over determinant).  A zero vector, which gives NaN in the source, is a
    ZeroDivision error here. *)
From Coq Require Import String List ZArith Reals.
From Verif Require Import Base.
Import ListNotations.
Open Scope R_scope.

Definition vec := (R * R * R)%type.
Definition mat := (vec * vec * vec)%type.

Definition dot (a b : vec) : R :=
  let '(a0, a1, a2) := a in let '(b0, b1, b2) := b in a0 * b0 + a1 * b1 + a2 * b2.
Definition cross (a b : vec) : vec :=
  let '(a0, a1, a2) := a in let '(b0, b1, b2) := b in
  (a1 * b2 - a2 * b1, a2 * b0 - a0 * b2, a0 * b1 - a1 * b0).
Definition vscale (k : R) (a : vec) : vec :=
  let '(a0, a1, a2) := a in (k * a0, k * a1, k * a2).
Definition vadd (a b : vec) : vec :=
  let '(a0, a1, a2) := a in let '(b0, b1, b2) := b in (a0 + b0, a1 + b1, a2 + b2).
Definition vsub (a b : vec) : vec :=
  let '(a0, a1, a2) := a in let '(b0, b1, b2) := b in (a0 - b0, a1 - b1, a2 - b2).
Definition norm (a : vec) : R := sqrt (dot a a).

Definition transpose (m : mat) : mat :=
  let '((a, b, c), (d, e, f), (g, h, i)) := m in ((a, d, g), (b, e, h), (c, f, i)).
Definition mvec (m : mat) (v : vec) : vec :=
  let '(r0, r1, r2) := m in (dot r0 v, dot r1 v, dot r2 v).
Definition mmul (m n : mat) : mat :=
  let '(c0, c1, c2) := transpose n in
  let '(r0, r1, r2) := m in
  ((dot r0 c0, dot r0 c1, dot r0 c2),
   (dot r1 c0, dot r1 c1, dot r1 c2),
   (dot r2 c0, dot r2 c1, dot r2 c2)).
Definition mscale (k : R) (m : mat) : mat :=
  let '(r0, r1, r2) := m in (vscale k r0, vscale k r1, vscale k r2).
Definition madd (m n : mat) : mat :=
  let '(r0, r1, r2) := m in let '(s0, s1, s2) := n in (vadd r0 s0, vadd r1 s1, vadd r2 s2).
Definition identity : mat := ((1, 0, 0), (0, 1, 0), (0, 0, 1)).
Definition det (m : mat) : R :=
  let '(r0, r1, r2) := m in dot r0 (cross r1 r2).

(** [np.linalg.inv] *)
Definition inverse (m : mat) : res mat :=
  if Req_EM_T (det m) 0 then Err ValueError
  else let '(r0, r1, r2) := m in
       Ok (mscale (/ det m) (transpose (cross r1 r2, cross r2 r0, cross r0 r1))).

(** rotation.py lines 35-44: the direction of the axis, and the matrix that flips it
    (lines 53-54). *)
Definition direction (axis : string) : res (vec * mat) :=
  if String.eqb axis "x" then Ok ((1, 0, 0), ((-1, 0, 0), (0, 1, 0), (0, 0, 1)))
  else if String.eqb axis "y" then Ok ((0, 1, 0), ((1, 0, 0), (0, -1, 0), (0, 0, 1)))
  else if String.eqb axis "z" then Ok ((0, 0, 1), ((1, 0, 0), (0, 1, 0), (0, 0, -1)))
  else Err ValueError.

(** rotation.py lines 61-68: the matrix of the cross product with a vector. *)
Definition skew (k : vec) : mat :=
  let '(k0, k1, k2) := k in ((0, - k2, k1), (k2, 0, - k0), (- k1, k0, 0)).

(** rotation.py lines 7-72. *)
Definition rotation_matrix_from_vector (vector : vec) (axis : string) : res mat :=
  if Req_EM_T (norm vector) 0 then Err ZeroDivision
  else
    let normed := vscale (/ norm vector) vector in
    do df <- direction axis;
    let (original, flip) := df : vec * mat in
    let product := cross original normed in
    let modulus := norm product in
    if Rle_dec modulus (1 / 1000000) then Ok flip
    else
      let product := vscale (/ modulus) product in
      let cos_theta := dot original normed in
      let sin_theta := sin (acos cos_theta) in
      let A := skew product in
      inverse (madd identity (madd (mscale sin_theta A)
                                   (mscale (1 - cos_theta) (mmul A A)))).

(** _vistools.py lines 119-167, the rotated branch: the coordinates relative to the
    centre are multiplied by the matrix and the centre is added back. *)
Definition rotate (matrix : mat) (center c : vec) : vec :=
  vadd (mvec matrix (vsub c center)) center.

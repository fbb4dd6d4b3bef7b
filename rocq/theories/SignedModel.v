(** The loops of fast.py and gpu.py as in RoundModel.v, with what numba adds to them through signatures: kernels.py 11 and
    gpu.py 14 declare "float32(float32, float32)", so that a compiled kernel's radius, width and value are narrowed to single
    precision. [out] is what happens to a product of a mass and a kernel before it is added: nothing for masses of double
    precision, narrowing for masses of single precision and in the atomic additions of gpu.py 165-167 and 195. *)
From Coq Require Import List ZArith Bool.
From Verif Require Import Base RoundModel.
Import ListNotations.
Open Scope Z_scope.

Section Signed.
Variable A : arith.
Variables wid out : num A -> num A.

(** kernels.py 11-55, gpu.py 14-59. *)
Definition compiled_kernel (r w : num A) : num A := single A (kernel2 A (single A) (single A r) (single A w)).

(** fast.py 80-175, gpu.py 114-195. [wid] is what happens to the products with a width: nothing for smoothing lengths of double
    precision, narrowing for those of single precision, [kernel_gamma] and [float_res] being of single precision. *)
Definition signed_at (n : Z) (m h x y : num A) : list (rwrite A) :=
  let float_res := single A (of_int A n) in
  let pixel_width := div A (one A) float_res in
  let float_res_64 := double A (of_int A n) in
  let inverse_cell_area := of_int A (n * n) in
  let cx := cell_of A float_res_64 x in
  let cy := cell_of A float_res_64 y in
  let w := wid (mul A (gamma2 A) h) in
  let s := int32 A (add A (one A) (wid (mul A w float_res))) in
  if outside n cx s || outside n cy s then []
  else if s <=? 1
       then (if within n cx && within n cy then [([cx; cy], out (mul A m inverse_cell_area))] else [])
       else over2 A (span_range n (cx - s) (cx + s + 1)) (span_range n (cy - s) (cy + s + 1))
              (fun i j =>
                 let r := root A (add A (square_of A (distance A (single A) pixel_width i x)) (square_of A (distance A (single A) pixel_width j y))) in
                 out (mul A m (compiled_kernel r w))).
Definition signed_part (n : Z) (bx by_ : num A) (p : rpart A) : list (rwrite A) := copies2 A bx by_ (signed_at n (r_m p) (r_h p)) p.
Definition signed_thread (n : Z) (bx by_ : num A) (ps : list (rpart A)) (t : Z * Z * Z) : list (rwrite A) :=
  let '(i, dx, dy) := t in
  match nth_error ps (Z.to_nat i) with
  | None => []
  | Some p => signed_at n (r_m p) (r_h p) (add A (r_x p) (mul A (sub A (of_int A dx) (one A)) bx)) (add A (r_y p) (mul A (sub A (of_int A dy) (one A)) by_))
  end.

(** gpu.py 262-281: the copies along an axis, and the threads for [count] particle numbers (a multiple of 16 that is not below
    the number of particles). *)
Definition launch_copies (box : num A) : Z :=
  if equal A box (zero A) then 1 else int A (add A (ceil A (div A (one A) box)) (of_int A 2)).
Definition launch (bx by_ : num A) (count : Z) : list (Z * Z * Z) :=
  flat_map (fun i => flat_map (fun dx => map (fun dy => (i, dx, dy)) (zrange 0 (launch_copies by_))) (zrange 0 (launch_copies bx))) (zrange 0 count).
End Signed.

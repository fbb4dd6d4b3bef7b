(** Model of the conversions to 32-bit integers in the compiled loops of the visualisation backends ([np.int32(...)] in
    projection_backends, slice_backends/sph.py and volume_render_backends/scatter.py).  Definitions only. *)
From Coq Require Import ZArith Bool.
From Verif Require Import RoundModel.
Open Scope Z_scope.

(** The same arithmetic with another conversion.  C leaves open which integer a number becomes that does not fit. *)
Definition with_int32 (A : arith) (conv : num A -> Z) : arith :=
  mk_arith (num A) (of_int A) (lit A) (single A) (double A) (add A) (sub A) (mul A) (div A) (modulo A) (root A)
           (floor A) (ceil A) (larger A) (smaller A) (less A) (less_eq A) (equal A) conv (int A).

Definition same_part {A : arith} (conv : num A -> Z) (p : rpart A) : rpart (with_int32 A conv) :=
  @mk_rpart (with_int32 A conv) (r_x p) (r_y p) (r_z p) (r_m p) (r_h p).

(** Of an integer the conversions known: the smallest one for all numbers that do not fit (x86), the nearest one that
    fits (ARM), the lowest 32 bits. *)
Definition smallest (z : Z) : Z := if (- 2 ^ 31 <=? z) && (z <? 2 ^ 31) then z else - 2 ^ 31.
Definition saturated (z : Z) : Z := Z.max (- 2 ^ 31) (Z.min z (2 ^ 31 - 1)).
Definition lowest_bits (z : Z) : Z := (z + 2 ^ 31) mod 2 ^ 32 - 2 ^ 31.

(** Specification vocabulary for conversions to 32-bit integers. *)
From Coq Require Import ZArith QArith.
From Verif Require Import RoundModel.
Open Scope Z_scope.

(** The integer fits. *)
Definition fits (z : Z) : Prop := - 2147483648 <= z <= 2147483647.

(** [narrow] turns integers into 32-bit integers: those that fit are kept, others become one of the two at the ends. *)
Definition keeps_outside (narrow : Z -> Z) : Prop :=
  forall z, (fits z -> narrow z = z) /\ (~ fits z -> narrow z = - 2147483648 \/ narrow z = 2147483647).

(** The radius in pixels of a kernel with support [gamma] times the smoothing length, and the image around it: the
    numbers fit. *)
Definition radius (A : arith) (gamma h : num A) (res : num A) : Z :=
  int32 A (add A (lit A 1) (mul A (mul A gamma h) res)).
Definition small (n radius : Z) : Prop := - 2147483648 <= radius /\ 0 <= n <= 2147483647 /\ radius + n <= 2147483647.

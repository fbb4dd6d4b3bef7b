(** Vocabulary for the statements about kernels. *)
From Coq Require Import Reals.
Local Open Scope R_scope.

(** [v] is the integral of [f] from [a] to [b]. *)
Definition integral (f : R -> R) (a b v : R) : Prop := exists pr : Riemann_integrable f a b, RiemannInt pr = v.

(** Relative deviation of at most [e]. *)
Definition within (e x y : R) : Prop := Rabs (x - y) <= e * Rabs y.

(** What rings (in the plane) and shells (in space) of radius [r] hold. *)
Definition in_rings (k : R -> R) (r : R) : R := 2 * PI * r * k r.
Definition in_shells (k : R -> R) (r : R) : R := 4 * PI * r ^ 2 * k r.

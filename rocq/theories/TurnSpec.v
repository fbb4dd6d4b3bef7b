(** Vocabulary for coordinates that are rotated with rounded numbers. *)
From Coq Require Import Reals.
From Verif Require Import RotModel WrapSpec.
Open Scope R_scope.

Definition vabs (v : vec) : vec := let '(v0, v1, v2) := v in (Rabs v0, Rabs v1, Rabs v2).
(** A statement on every coordinate. *)
Definition each2 (P : R -> R -> Prop) (v w : vec) : Prop :=
  let '(v0, v1, v2) := v in let '(w0, w1, w2) := w in P v0 w0 /\ P v1 w1 /\ P v2 w2.
Definition each3 (P : R -> R -> R -> Prop) (u v w : vec) : Prop :=
  let '(u0, u1, u2) := u in let '(v0, v1, v2) := v in let '(w0, w1, w2) := w in P u0 v0 w0 /\ P u1 v1 w1 /\ P u2 v2 w2.
Definition double_vec (v : vec) : Prop := each2 (fun x _ => double_number x) v v.
(** Every entry is within [e]. *)
Definition mat_near (e : R) (m q : mat) : Prop :=
  let '(m0, m1, m2) := m in let '(q0, q1, q2) := q in
  let near := each2 (fun a b => Rabs (a - b) <= e) in near m0 q0 /\ near m1 q1 /\ near m2 q2.
(** Straight-line distance. *)
Definition far (v w : vec) : R :=
  let '(v0, v1, v2) := v in let '(w0, w1, w2) := w in
  sqrt ((v0 - w0) * (v0 - w0) + (v1 - w1) * (v1 - w1) + (v2 - w2) * (v2 - w2)).
Definition origin : vec := (0, 0, 0).
(** What rounding and a matrix that is off by [e] do to one coordinate of a point at distance [n] from the centre whose
    coordinate is [c]. *)
Definition slack (e c n : R) : R := 6 * u53 * (c + (1 + 2 * e) * n) + 2 * e * n.

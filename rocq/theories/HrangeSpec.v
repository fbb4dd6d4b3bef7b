(** What the bins of a histogram with a range should be. *)
From Coq Require Import List Reals.
From Verif Require Import Base.
Import ListNotations.
Open Scope R_scope.

(** The edges of [n] bins of the same width, from [lo] to [hi]. *)
Definition equal_bins (lo hi : R) (n : nat) (e : list R) : Prop :=
  length e = S n /\ nth 0 e 0 = lo /\ nth n e 0 = hi
  /\ forall i, (i < n)%nat -> nth (S i) e 0 - nth i e 0 = (hi - lo) / INR n.

(** The least and the greatest of some numbers. *)
Definition least (m : R) (v : list R) : Prop := In m v /\ forall u, In u v -> m <= u.
Definition greatest (m : R) (v : list R) : Prop := In m v /\ forall u, In u v -> u <= m.

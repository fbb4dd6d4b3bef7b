(** Specification vocabulary for reads of rows that a dataset does not have. *)
From Coq Require Import List ZArith Sorted.
From Verif Require Import Base.
Import ListNotations.
Open Scope Z_scope.

(** The rows of [data[s:e]] in Python, for [n] rows: negative bounds count from the end. *)
Definition sliced (n s e i : Z) : Prop :=
  0 <= i < n /\ (if s <? 0 then s + n else s) <= i /\ i < (if e <? 0 then e + n else e).

Definition slice_is (n s e : Z) (rows : list Z) : Prop :=
  StronglySorted Z.lt rows /\ forall i, In i rows <-> sliced n s e i.

(** What a range stands for when it is read: nothing if it is empty, the slice if that has as many rows as the range,
    and otherwise the only row of the slice as many times as the range is long. *)
Inductive delivers (n : Z) : Z * Z -> list Z -> Prop :=
| delivers_none : forall s, delivers n (s, s) []
| delivers_all : forall s e rows, s < e -> slice_is n s e rows -> zlen rows = e - s -> delivers n (s, e) rows
| delivers_one : forall s e i, s < e -> slice_is n s e [i] -> delivers n (s, e) (repeat i (Z.to_nat (e - s))).

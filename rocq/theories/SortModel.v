(** Model of [np.argsort(..., stable=True)] and [np.sort] as insertion sort. *)
From Coq Require Import List ZArith Bool.
From Verif Require Import Base.
Import ListNotations.
Open Scope Z_scope.

(** Insert before the first element whose key is not smaller. *)
Fixpoint insert_key (x : Z * nat) (l : list (Z * nat)) : list (Z * nat) :=
  match l with
  | [] => [x]
  | y :: t => if fst x <=? fst y then x :: l else y :: insert_key x t
  end.

Definition sort_keys (l : list (Z * nat)) : list (Z * nat) := fold_right insert_key [] l.

(** masks.py:396 [np.argsort(offsets, stable=True)]. *)
Definition stable_argsort (keys : list Z) : list nat :=
  map snd (sort_keys (combine keys (seq 0 (length keys)))).

(** masks.py:941 [np.sort(indices)]. *)
Definition np_sort (keys : list Z) : list Z :=
  map fst (sort_keys (combine keys (seq 0 (length keys)))).

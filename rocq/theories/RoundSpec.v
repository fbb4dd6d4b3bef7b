(** Vocabulary for compiled loops. *)
From Coq Require Import List ZArith.
Import ListNotations.
Open Scope Z_scope.

(** The element [c] of an array of shape [s] exists. *)
Definition exists_in (s c : list Z) : Prop := Forall2 (fun n i => 0 <= i < n) s c.

(** All elements that are written exist. *)
Definition safe {A} (s : list Z) (writes : list (list Z * A)) : Prop := forall c v, In (c, v) writes -> exists_in s c.

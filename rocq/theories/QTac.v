(** [qlra]: lra on rationals with divisions by small constants. *)
From Coq Require Import QArith Lqa.

Ltac qconst := unfold Qdiv in *;
  repeat change (/ 2)%Q with (1 # 2)%Q in *.
Ltac qlra := qconst; lra.

(** Vocabulary for spatial masks with rounded numbers. *)
From Coq Require Import List ZArith Reals.
From Verif Require Import Base.
Import ListNotations.
Open Scope R_scope.

(** A position is strictly inside the periodic interval from [lo] to [up]: if [up < lo] the interval goes
    through the edge of the box. *)
Definition in_interval (box lo up x : R) : Prop :=
  exists j : Z, lo < x + IZR j * box
                /\ ((lo <= up /\ x + IZR j * box < up) \/ (up < lo /\ x + IZR j * box < up + box)).

(** Regions of which rounding loses nothing: bounds inside of the box, in order, or wrapped around the edge
    with the lower bound in the upper half. *)
Definition robust (box lo up : R) : Prop :=
  0 <= lo <= box /\ 0 <= up <= box /\ (lo <= up \/ box / 2 < lo).

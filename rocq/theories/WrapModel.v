(** Coordinates that are wrapped into the box, and the depth of projections, in any arithmetic.

    visualisation/_vistools.py, projection.py and slice.py with the operations of an [arith] (RoundModel.v), so that
    rounding is part of the model.  Units and frames are left out (C120, C122). *)
From Coq Require Import List ZArith Bool.
From Verif Require Import Base RoundModel.

Section Wrap.
Variable A : arith.
Notation F := (num A).

(** _vistools.py lines 170-171: [coords %= boxsize] if periodic. *)
Definition wrap_coord (periodic : bool) (L x : F) : F := if periodic then modulo A x L else x.

(** projection.py lines 134-139, slice.py lines 123-130: a coordinate from the region's lower corner in units of
    the extent [M], wrapped again into the box in these units (_vistools.py lines 102-104). *)
Definition normed_coord (periodic : bool) (lo M L x : F) : F :=
  let t := div A (sub A (wrap_coord periodic L x) lo) M in
  if periodic then modulo A t (div A L M) else t.

(** projection.py lines 112-131: which particles are in the depth of a region. *)
Definition kept_depth (periodic : bool) (L z0 z1 z : F) : bool :=
  if periodic
  then if less_eq A (modulo A z1 L) (modulo A z0 L)
       then less_eq A z (modulo A z1 L) || less_eq A (modulo A z0 L) z
       else less_eq A z (modulo A z1 L) && less_eq A (modulo A z0 L) z
  else less_eq A z z1 && less_eq A z0 z.
Definition depth_mask (periodic : bool) (L z0 z1 : F) (zs : list F) : res (list bool) :=
  if periodic && less A L (sub A z1 z0) then Err ValueError
  else Ok (List.map (fun z => kept_depth periodic L z0 z1 (wrap_coord periodic L z)) zs).
End Wrap.

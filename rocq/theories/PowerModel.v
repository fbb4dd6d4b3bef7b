(** Model of visualisation/power_spectrum.py: the deposition on a folded grid.

    Real numbers: [x % b] is exact here; in floating point a tiny negative [x] can give [b]
    itself and then an index equal to the resolution. *)
From Coq Require Import List ZArith Reals Bool.
From Verif Require Import Base VisModel HsmlModel.
Import ListNotations.
Open Scope R_scope.

(** Lines 73-95: the cell of a particle along one axis. *)
Definition deposit_index (n : Z) (fold box x : R) : Z :=
  let box_over_fold := box / fold in
  let inv_box_over_fold := 1 / box_over_fold in
  let scaled := rmod x box_over_fold * inv_box_over_fold in
  trunc (scaled * IZR n).

(** Lines 82-98. *)
Definition deposit_part (n : Z) (fold box_x box_y box_z : R) (p : part) : list write :=
  let inv_volume_element := IZR n * IZR n * IZR n * (fold * fold * fold) in
  [([deposit_index n fold box_x (p_x p); deposit_index n fold box_y (p_y p);
     deposit_index n fold box_z (p_z p)], p_m p * inv_volume_element)].

(** [deposit] and [deposit_parallel], lines 12-184. *)
Definition deposit n fold bx by_ bz ps :=
  render (cube n) (flat_map (deposit_part n fold bx by_ bz) ps).
Definition deposit_parallel n fold bx by_ bz ps :=
  parallel (cube n) (cube n) (cube n) (deposit_part n fold bx by_ bz) ps.

(** * render_to_deposit, lines 187-275 *)

(** The state of the arrays that matters: whether they are comoving, whether they may be
    used in each frame, their units (any labels) and the values. *)
Record deposit_input := mkinput {
  positions_comoving : bool;
  compatible_comoving : bool;
  compatible_physical : bool;
  position_units : Z;
  box_units : Z;
  box : R * R * R;
  particles : list part }.

Definition render_to_deposit (d : deposit_input) (n : Z) (folding : Z) : res image :=
  let fold := powerRZ 2 folding in
  if positions_comoving d && negb (compatible_comoving d) then Err AttributeError
  else if negb (positions_comoving d) && negb (compatible_physical d) then Err AttributeError
  else if negb (box_units d =? position_units d)%Z then Err AttributeError
  else let '(bx, by_, bz) := box d in
       do grid <- deposit n fold bx by_ bz (particles d);
       (* the units of the result contain 1 / volume of the box *)
       Ok (fun c => grid c * / (bx * by_ * bz)).

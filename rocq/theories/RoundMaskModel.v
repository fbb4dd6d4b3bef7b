(** Model of the selection of cells of swiftsimio/masks.py (294-440, 558-697) over any arithmetic, to say what
    rounding does to spatial masks.  Definitions only.  Left out: units and frames (C100), several keys (each
    has its own cells), the sort of the cells (it moves rows only). *)
From Coq Require Import List ZArith QArith Bool.
From Verif Require Import Base RangesModel MaskModel RoundModel.
Import ListNotations.
Open Scope Z_scope.

Section Masks.
Variable A : arith.
Notation F := (num A).

(** [np.abs] and [-x]; a change of sign is not rounded. *)
Definition absolute (x : F) : F := if less A x (zero A) then sub A (zero A) x else x.
Definition opposite (x : F) : F := sub A (zero A) x.

(** masks.py 339-356: [np.where(centers_values - 0.5 * size < minpos, centers_values - 0.5 * size, minpos)],
    and the same with [>] and [maxpos]. *)
Definition stored_low (centre size minpos : F) : F :=
  let edge := sub A centre (mul A (half A) size) in if less A edge minpos then edge else minpos.
Definition stored_high (centre size maxpos : F) : F :=
  let edge := add A centre (mul A (half A) size) in if less A maxpos edge then edge else maxpos.
(** masks.py 376-381: [centers_values - (pad_cells + 0.5) * size], and with [+]. *)
Definition padded_low (centre size pad : F) : F := sub A centre (mul A (add A pad (half A)) size).
Definition padded_high (centre size pad : F) : F := add A centre (mul A (add A pad (half A)) size).

Record fcell := mk_fcell { f_offset : Z; f_count : Z; f_min : axis -> F; f_max : axis -> F }.

(** masks.py 612-625. *)
Definition window_error (box lower upper : F) : bool :=
  let low := div A (opposite box) (lit A 2) in
  let high := div A (mul A (lit A 3) box) (lit A 2) in
  less A lower low || less A upper low || less A high lower || less A high upper.

(** masks.py 626-634: nothing is excluded along the axis, or the interval after the inverted case. *)
Definition interval (box lower upper : F) : option (F * F) :=
  if less A box (absolute (sub A upper lower)) then None
  else if less A upper lower then
    if less A (div A box (lit A 2)) lower then Some (sub A lower box, upper)
    else if less A upper (div A box (lit A 2)) then Some (lower, add A upper box)
    else Some (lower, upper)
  else Some (lower, upper).

(** masks.py 642-658. *)
Definition copy_of (box x : F) (shift : Z) : F := add A x (mul A (of_int A shift) box).
Definition selects (box lower upper cmin cmax : F) : bool :=
  existsb (fun shift => less A lower (copy_of box cmax shift) && less A (copy_of box cmin shift) upper) [-1; 0; 1].

(** masks.py 608-659 for one key and one axis, then for all axes. *)
Definition mask_axis (box : axis -> F) (restrict : axis -> F * F) (cells : list fcell) (cell_mask : list bool) (a : axis)
  : list bool :=
  match interval (box a) (fst (restrict a)) (snd (restrict a)) with
  | None => cell_mask
  | Some (lower, upper) =>
      masked_assign cell_mask cell_mask
        (map (fun c => selects (box a) lower upper (f_min c a) (f_max c a)) (compress cell_mask cells))
  end.
Definition cell_mask (box : axis -> F) (restrict : axis -> F * F) (cells : list fcell) : res (list bool) :=
  if existsb (fun a => window_error (box a) (fst (restrict a)) (snd (restrict a))) axes then Err ValueError
  else Ok (fold_left (mask_axis box restrict cells) axes (map (fun _ => true) cells)).

(** masks.py 674-681: the ranges of rows that are read. *)
Definition read_ranges_of (box : axis -> F) (restrict : axis -> F * F) (cells : list fcell) : res (list range) :=
  do m <- cell_mask box restrict cells;
  Ok (map (fun c => (f_offset c, f_count c + f_offset c)) (compress m cells)).

End Masks.

Arguments mk_fcell {A}.
Arguments f_offset {A}.
Arguments f_count {A}.
Arguments f_min {A}.
Arguments f_max {A}.

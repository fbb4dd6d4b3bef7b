(** masks.py 475-556 [constrain_property] with datasets of one or more columns, and bounds that are quantities or arrays.

    Numpy's part is written down here: comparisons broadcast (one axis against one axis), [np.logical_and.reduce] of two
    arrays of different lengths is refused (numpy 1.24 and later), and [mask[mask] = new] takes arrays without or with one
    axis only: as many values as the mask has true entries, or one.  Numbers are rationals in one frame and unit (frames: C100). *)
From Coq Require Import List ZArith QArith Bool.
From Verif Require Import Base MaskModel.
Import ListNotations.
Open Scope Z_scope.

(** A dataset: a number for each particle, or a row of numbers. *)
Inductive column : Type := Numbers (l : list Q) | Table (rows : list (list Q)).
(** A bound: a quantity, or an array with one axis. *)
Inductive bound : Type := Single (q : Q) | Several (l : list Q).

(** 552: [data > lower], [data <= upper] for data with one axis; [f] takes the bound first. *)
Definition compared (f : Q -> Q -> bool) (data : list Q) (b : bound) : res (list bool) :=
  match b with
  | Single q => Ok (map (f q) data)
  | Several l =>
      if Nat.eqb (length l) (length data) then Ok (map (fun qv => f (fst qv) (snd qv)) (combine l data))
      else match l, data with
           | [q], _ => Ok (map (f q) data)
           | _, [v] => Ok (map (fun q => f q v) l)
           | _, _ => Err ValueError
           end
  end.

(** 552: [np.logical_and.reduce([a, b])]. *)
Definition both (a b : list bool) : res (list bool) :=
  if Nat.eqb (length a) (length b) then Ok (map (fun xy => andb (fst xy) (snd xy)) (combine a b)) else Err ValueError.

(** 553: [current_mask[current_mask] = new_mask]. *)
Definition count_true (m : list bool) : nat := length (filter (fun b => b) m).
Definition assigned (current new : list bool) : res (list bool) :=
  match new with
  | [b] => Ok (masked_assign current current (repeat b (count_true current)))
  | _ => if Nat.eqb (length new) (count_true current) then Ok (masked_assign current current new) else Err ValueError
  end.

(** 476-556 with the decorator; [values] is [None] when there is no such dataset. *)
Definition constrain_bounds (mm : mask_meta) (key : nat) (values : option column) (lower upper : bound) (st : mask_state) : outcome :=
  let m := convert_masks_to_bool mm (ms_masks st) in
  let st' := mk_mask_state (ms_constrained st) (ms_cell_mask st) m in
  match m, values with
  | InBools l, Some vals =>
      match nth_error l key with
      | None => (st', Some KeyError)
      | Some (current, size) =>
          let new :=
            match vals with
            | Table _ => Err ValueError (* two axes, whatever the bounds *)
            | Numbers vs =>
                let data := compress current vs in
                do a <- compared qltb data lower;
                do b <- compared (fun q v => Qle_bool v q) data upper;
                do n <- both a b;
                assigned current n
            end in
          match new with
          | Err e => (st', Some e)
          | Ok new => (mk_mask_state (Some CProperty) (ms_cell_mask st) (InBools (upd key (new, size) l)), None)
          end
      end
  | _, _ => (st', Some KeyError)
  end.

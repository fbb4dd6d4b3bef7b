(** Model of the conversions between frames of swiftsimio/objects.py (1410-1505, 1507-1590), without units, over
    any arithmetic and with arrays of integers.  Definitions only.
    numpy: a product in place keeps the type of the array, so the product of an array of integers with a number
    raises TypeError before anything is written.  Left out: copies of arrays of integers (unyt makes them floats). *)
From Coq Require Import List ZArith QArith Bool Reals Qreals.
From Flocq Require Import Core.
From Verif Require Import Base RoundModel RoundFloatModel.
Import ListNotations.

Section Conversions.
Variable A : arith.
Notation F := (num A).

(** Values, [comoving], [valid_transform], [cosmo_factor.a_factor], and whether the values are integers. *)
Record farr := mk_farr { f_vals : list F; f_comoving : option bool; f_valid : bool; f_factor : option F; f_whole : bool }.

(** [values /= a_factor] and [values *= a_factor]. *)
Definition in_place (op : F -> F -> F) (x : farr) (comoving : bool) : res farr :=
  match f_factor x with
  | None => Err TypeError
  | Some f => if f_whole x then Err TypeError
              else Ok (mk_farr (map (fun v => op v f) (f_vals x)) (Some comoving) (f_valid x) (f_factor x) (f_whole x))
  end.

(** 1446-1456. *)
Definition make_comoving (x : farr) : res farr :=
  match f_comoving x with
  | Some true => Ok x
  | None => Err InvalidConversion
  | Some false => if f_valid x then in_place (div A) x true else Err InvalidConversion
  end.
(** 1494-1505. *)
Definition make_physical (x : farr) : res farr :=
  match f_comoving x with
  | None => Err InvalidConversion
  | Some false => Ok x
  | Some true => in_place (mul A) x false
  end.

(** Conversions one after the other; with an error the array is the one before. *)
Inductive conversion := ToComoving | ToPhysical.
Definition step (c : conversion) (x : farr) : farr :=
  match (match c with ToComoving => make_comoving x | ToPhysical => make_physical x end) with Ok y => y | Err _ => x end.
Definition run (l : list conversion) (x : farr) : farr := fold_left (fun x c => step c x) l x.

End Conversions.

Arguments mk_farr {A}.
Arguments f_vals {A}.
Arguments f_comoving {A}.
Arguments f_valid {A}.
Arguments f_factor {A}.
Arguments f_whole {A}.

(** Real numbers rounded to [p] bits: 53 for float64, 24 for float32 (of which the factor is rounded, too). *)
Definition rounded_to (p : Z) : arith :=
  mk_arith R IZR (fun q => rnd p (Q2R q)) (rnd p) (fun x => x) (fun x y => rnd p (x + y)) (fun x y => rnd p (x - y))
    (fun x y => rnd p (x * y)) (fun x y => rnd p (x / y)) (fun x y => x) (fun x => rnd p (sqrt x))
    (fun x => IZR (Zfloor x)) (fun x => IZR (Zceil x)) Rmax Rmin
    (fun x y => if Rlt_dec x y then true else false) (fun x y => if Rle_dec x y then true else false)
    (fun x y => if Req_EM_T x y then true else false) Ztrunc Ztrunc.

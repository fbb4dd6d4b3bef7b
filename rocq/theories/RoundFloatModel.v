(** Two arithmetics for RoundModel.v: IEEE double precision (of the standard library), and real numbers that are
    rounded to 53 bits (of Flocq), without limits of the exponent. *)
From Coq Require Import List ZArith QArith Bool Floats.SpecFloat Reals.
From Flocq Require Import Core.
From Verif Require Import Base RoundModel.
Open Scope Z_scope.

(** * IEEE 754 *)

Definition binary (prec emax m e : Z) : spec_float := binary_normalize prec emax m e false.
Definition dbl (m e : Z) : spec_float := binary 53 1024 m e.

(** C's [fmod] of finite numbers, exact: the remainder of the division that rounds towards zero. *)
Definition fmod (x y : spec_float) : spec_float :=
  match x, y with
  | S754_finite s m e, S754_finite _ m' e' =>
      let k := Z.min e e' in
      let r := Z.rem (cond_Zopp s (Z.pos m) * 2 ^ (e - k)) (Z.pos m' * 2 ^ (e' - k)) in
      if r =? 0 then S754_zero s else dbl r k
  | S754_zero s, S754_finite _ _ _ => S754_zero s
  | S754_finite _ _ _, S754_infinity _ => x
  | S754_zero _, S754_infinity _ => x
  | _, _ => S754_nan
  end.
Definition sign (x : spec_float) : bool :=
  match x with S754_finite s _ _ | S754_zero s | S754_infinity s => s | S754_nan => false end.
Definition is_zero (x : spec_float) : bool := match x with S754_zero _ => true | _ => false end.
(** numba's (and Python's) [x % y]: the remainder has the sign of [y], by a sum that is rounded. *)
Definition py_mod (x y : spec_float) : spec_float :=
  let r := fmod x y in
  if is_zero r then S754_zero (sign y)
  else if eqb (sign r) (sign y) then r else SFadd 53 1024 r y.

(** The integer part of a number: towards zero. *)
Definition whole (x : spec_float) : option Z :=
  match x with
  | S754_zero _ => Some 0
  | S754_finite s m e => Some (cond_Zopp s (if 0 <=? e then Z.pos m * 2 ^ e else Z.pos m / 2 ^ (- e)))
  | _ => None
  end.
Definition floor_sf (up : bool) (x : spec_float) : spec_float :=
  match x with
  | S754_finite s m e =>
      if 0 <=? e then x
      else let v := cond_Zopp s (Z.pos m) in
           let z := if up then - ((- v) / 2 ^ (- e)) else v / 2 ^ (- e) in
           if z =? 0 then S754_zero s else dbl z 0
  | _ => x
  end.
(** The conversion of x86 processors: what is not representable becomes the smallest integer. *)
Definition to_int (bits : Z) (x : spec_float) : Z :=
  match whole x with
  | Some z => if (- 2 ^ (bits - 1) <=? z) && (z <? 2 ^ (bits - 1)) then z else - 2 ^ (bits - 1)
  | None => - 2 ^ (bits - 1)
  end.

(** numba's [max(x, y)] keeps [x] unless [y > x]. *)
Definition larger_sf (x y : spec_float) := if SFltb x y then y else x.
Definition smaller_sf (x y : spec_float) := if SFltb y x then y else x.

(** Rounding to 24 bits; the result is represented like the other numbers. *)
Definition single_sf (x : spec_float) : spec_float :=
  match x with
  | S754_finite s m e =>
      match binary_normalize 24 128 (cond_Zopp s (Z.pos m)) e s with
      | S754_finite s' m' e' => dbl (cond_Zopp s' (Z.pos m')) e'
      | y => y
      end
  | _ => x
  end.

(** All operations in double precision; [single] rounds to 24 bits. *)
Definition ieee : arith :=
  mk_arith spec_float (fun z => dbl z 0) (fun q => SFdiv 53 1024 (dbl (Qnum q) 0) (dbl (Z.pos (Qden q)) 0))
    single_sf
    (fun x => x)
    (SFadd 53 1024) (SFsub 53 1024) (SFmul 53 1024) (SFdiv 53 1024) py_mod (SFsqrt 53 1024)
    (floor_sf false) (floor_sf true) larger_sf smaller_sf SFltb SFleb SFeqb (to_int 32) (to_int 64).

(** * Rounded real numbers *)

Open Scope R_scope.
Definition rnd (prec : Z) (x : R) : R := round radix2 (FLX_exp prec) ZnearestE x.
Definition rnd2 (op : R -> R -> R) (x y : R) : R := rnd 53 (op x y).
(** The exact remainder for [0 <= x], [0 < y]; otherwise the sum with [y] is rounded. *)
Definition rem_toward (x y : R) : R := x - y * IZR (Ztrunc (x / y)).
Definition mod_r (x y : R) : R :=
  let r := rem_toward x y in
  if Rle_dec 0 (r * y) then r else rnd 53 (r + y).
Definition rounded : arith :=
  mk_arith R IZR (fun q => rnd 53 (Q2R q)) (rnd 24) (fun x => x) (rnd2 Rplus) (rnd2 Rminus) (rnd2 Rmult) (rnd2 Rdiv) mod_r
    (fun x => rnd 53 (sqrt x)) (fun x => IZR (Zfloor x)) (fun x => IZR (Zceil x)) Rmax Rmin
    (fun x y => if Rlt_dec x y then true else false) (fun x y => if Rle_dec x y then true else false)
    (fun x y => if Req_EM_T x y then true else false) Ztrunc Ztrunc.

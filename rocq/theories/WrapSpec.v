(** Vocabulary for rounded coordinates in periodic boxes. *)
From Coq Require Import ZArith Reals.
From Flocq Require Import Core.
Open Scope R_scope.

(** Numbers of double precision, without limits of the exponent, and half the distance from 1 to the next one. *)
Definition double_number (x : R) : Prop := generic_format radix2 (FLX_exp 53) x.
Definition u53 : R := / 2 ^ 53.

(** Up to whole boxes, two positions are less than [e] (or at most [e]) apart. *)
Definition near_mod (L e x y : R) : Prop := exists k, Rabs (x - (y + IZR k * L)) < e.
Definition near_mod_eq (L e x y : R) : Prop := exists k, Rabs (x - (y + IZR k * L)) <= e.
(** A periodic image of [z] is in the closed interval. *)
Definition image_within (L lo hi z : R) : Prop := exists k, lo <= z + IZR k * L <= hi.

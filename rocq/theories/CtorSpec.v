(** Vocabulary for constructors and for conversions with units. *)
From Coq Require Import List ZArith Bool Reals.
From Verif Require Import Base CosmoModel CosmoSpec CtorModel.
Import ListNotations.
Open Scope R_scope.

(** The number [s ** k] of a scale factor with exponent. *)
Inductive number_of : cf -> R -> Prop :=
| number_intro : forall s k, number_of (mkcf (Some k) (Some s)) (Rpower s k).

(** Two factors that count as the same one: equal scale factors, and numbers that are close or both
    missing. *)
Definition alike (c d : cf) : Prop :=
  cscale c = cscale d
  /\ ((exists f, number_of c f) <-> (exists g, number_of d g))
  /\ (forall f g, number_of c f -> number_of d g -> Rabs (f - g) <= 1 / 10 ^ 8 + 1 / 10 ^ 6 * g).

(** [asked c sf se r]: a factor [c], a scale factor [sf] and an exponent [se], each possibly missing, ask
    for the factor [r] (possibly none at all). *)
Inductive asked : option cf -> option R -> option R -> option cf -> Prop :=
| asked_nothing : asked None None None None
| asked_factor : forall c, asked (Some c) None None (Some c)
| asked_pair : forall s e, asked None (Some s) (Some e) (Some (mkcf (Some e) (Some s)))
| asked_both : forall c sf e, alike (mkcf (Some e) sf) c -> asked (Some c) sf (Some e) (Some c).

(** The factor of an array for which [r] was asked: without any, the empty one. *)
Definition settled (r : option cf) : cf := match r with Some c => c | None => mkcf None None end.

(** Frame and convertibility that go together. *)
Inductive permitted : option bool -> bool -> Prop :=
| permitted_unset : permitted None false
| permitted_comoving : permitted (Some true) true
| permitted_physical : forall vt, permitted (Some false) vt.

(** The first that is there. *)
Definition first_of {A} (x y : option A) : option A := match x with Some _ => x | None => y end.
Definition given {A} (x : option A) (d : A) : A := match x with Some a => a | None => d end.
Definition first_comp (x y : comp) : comp := match x with CNone => y | CStr _ | CPair _ _ => x end.

(** [moved x c cm v]: the numbers [v] are those of [x], with factor [c], in the frame [cm]. *)
Inductive moved (x : carr) (c : cf) : option bool -> list R -> Prop :=
| moved_not : moved x c (acm x) (avals x)
| moved_physical : forall f, acm x = Some true -> number_of c f ->
    moved x c (Some false) (map (fun v => v * f) (avals x))
| moved_comoving : forall f, acm x = Some false -> avt x = true -> number_of c f ->
    moved x c (Some true) (map (fun v => v / f) (avals x)).

(** What the elements of a list have in common: convertible arrays at one scale factor with one
    exponent. *)
Definition all_good (s k : R) (l : list carr) : Prop := forall x, In x l -> good s k x.

(** * Units *)

(** Units have a dimension and a positive size. *)
Record unit_system (U : Type) := mkus {
  us_dim : U -> nat;
  us_size : U -> R;
  us_pos : forall u, 0 < us_size u
}.

(** A correct table of ratios. *)
Definition correct {U} (S : unit_system U) (ratio : U -> U -> res R) : Prop :=
  forall u v,
    (us_dim U S u = us_dim U S v -> ratio u v = Ok (us_size U S u / us_size U S v))
    /\ (us_dim U S u <> us_dim U S v -> exists e, ratio u v = Err e).

(** What an array is worth: physical values in terms of the unit of size one. *)
Definition worth {U} (S : unit_system U) (x : uarr U) : list R :=
  map (Rmult (us_size U S (u_unit x))) (phys (u_arr x)).

(** Nothing but numbers, unit and frame differ. *)
Definition same_labels (x y : carr) : Prop := acf x = acf y /\ avt x = avt y /\ acomp x = acomp y.

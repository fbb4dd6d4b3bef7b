(** What the fields of a writer are, independently of the tables of the code. *)
From Coq Require Import String List ZArith Bool Reals QArith Qreals.
From Verif Require Import Base CosmoModel CosmoSpec WriterModel WriterSpec.
Import ListNotations.
Open Scope R_scope.

(** The exponents of mass, length and time of a quantity that has no others. *)
Definition of_dimension (m l t : Q) (d : dims) : Prop :=
  (dM d == m)%Q /\ (dL d == l)%Q /\ (dt d == t)%Q /\ (dT d == 0)%Q /\ (dI d == 0)%Q
  /\ (dX d == 0)%Q.

(** What the fields measure. *)
Inductive measures : string -> dims -> Prop :=
| m_position : forall d, of_dimension 0 1 0 d -> measures "coordinates" d
| m_size : forall d, of_dimension 0 1 0 d -> measures "smoothing_lengths" d
| m_velocity : forall d, of_dimension 0 1 (-1) d -> measures "velocities" d
| m_mass : forall d, of_dimension 1 0 0 d -> measures "masses" d
| m_energy : forall d, of_dimension 0 2 (-2) d -> measures "internal_energy" d.

(** The units they are stored in. *)
Inductive stored_in (s : usys) : string -> R -> Prop :=
| u_position : stored_in s "coordinates" (uL s)
| u_size : stored_in s "smoothing_lengths" (uL s)
| u_velocity : stored_in s "velocities" (uL s / ut s)
| u_mass : stored_in s "masses" (uM s)
| u_energy : stored_in s "internal_energy" ((uL s * uL s) / (ut s * ut s)).

(** A unit system of positive units. *)
Definition proper (s : usys) : Prop :=
  0 < uM s /\ 0 < uL s /\ 0 < ut s /\ 0 < uT s /\ 0 < uI s /\ 0 < uX s.

(** The label of an array says the scale factor [a], and the array is comoving or can be
    made so. *)
Definition usable (a : R) (x : carr) : Prop :=
  exists c, acf x = Some c /\ cscale c = Some a
    /\ (acm x = Some true
        \/ (acm x = Some false /\ avt x = true /\ exists k, cexpr c = Some k)).

(** Numbers that can be IDs. *)
Definition proper_ids (shape : list Z) (v : list R) : Prop :=
  (exists n, shape = [n]) /\ NoDup v /\ forall x, In x v -> 0 < x.

(** Labels that pass for the one of IDs: the factor is 1 up to about one in a million. *)
Definition almost_one (f : R) : Prop := Rabs (1 - f) <= 1 / 100000000 + 1 / 1000000 * Rabs f.

Definition id_label (a : R) (x : carr) : Prop :=
  exists k, acf x = Some (mkcf (Some k) (Some a)) /\ almost_one (Rpower a k)
    /\ (acm x = Some true \/ (acm x = Some false /\ avt x = true)).

(** After an assignment the field refers to [l]; nothing else of the writers changed. *)
Definition refers (st st' : state) (i t : nat) (name : string) (l : nat) : Prop :=
  length (writers st') = length (writers st)
  /\ (forall j, j <> i -> nth_error (writers st') j = nth_error (writers st) j)
  /\ exists w w', nth_error (writers st) i = Some w /\ nth_error (writers st') i = Some w'
     /\ w_sys w' = w_sys w /\ w_a w' = w_a w /\ w_box w' = w_box w
     /\ w_fields w' t name = Some l
     /\ forall t' n', t' <> t \/ n' <> name -> w_fields w' t' n' = w_fields w t' n'.

(** Two memories differ at most at [l]. *)
Definition apart_from (l : nat) (m m' : list warr) : Prop :=
  length m' = length m /\ forall j, j <> l -> nth_error m' j = nth_error m j.

(** [y] is [x] in the unit [u] and comoving: the same numbers in cgs, the same attributes. *)
Definition converted (u : R) (x y : warr) : Prop :=
  wunit y = u /\ acm (wdata y) = Some true
  /\ avals (wdata y) = map (fun v => v * (wunit x / u)) (comov (wdata x))
  /\ cgs y = cgs x
  /\ wshape y = wshape x /\ dims_eq (wdims y) (wdims x) /\ wint y = wint x
  /\ acf (wdata y) = acf (wdata x) /\ avt (wdata y) = avt (wdata x)
  /\ acomp (wdata y) = acomp (wdata x).

(** Why a quantity is refused, the first reason wins. *)
Definition refused (a : R) (name : string) (m : list warr) (g : given) (e : pyerr) : Prop :=
  match g with
  | GPlain _ _ => e = TypeError
  | GArr l =>
      match nth_error m l with
      | None => e = TypeError
      | Some x =>
          (acf (wdata x) = None /\ e = AttributeError)
          \/ exists c, acf (wdata x) = Some c
             /\ ((cscale c <> Some a /\ e = AssertionErr)
                 \/ (cscale c = Some a /\ ~ measures name (wdims x) /\ e = InvalidUnit)
                 \/ (cscale c = Some a /\ measures name (wdims x)
                     /\ ((acm (wdata x) = None /\ e = InvalidConversion)
                         \/ (acm (wdata x) = Some false /\ avt (wdata x) = false
                             /\ e = InvalidConversion)
                         \/ (acm (wdata x) = Some false /\ avt (wdata x) = true
                             /\ cexpr c = None /\ e = TypeError))))
      end
  end.

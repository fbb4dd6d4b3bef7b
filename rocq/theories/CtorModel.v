(** Model of swiftsimio/objects.py: the constructors of [cosmo_array] and [cosmo_quantity], pickling,
    [from_astropy], [from_pint], and the conversions that also take a unit.

    Values are flat lists of real numbers (see CosmoModel.v); dtype, registry and name are left out, and so
    are equivalences.  Units are an arbitrary type. *)
From Coq Require Import List ZArith Bool Reals String.
From Verif Require Import Base CosmoModel.
Import ListNotations.
Open Scope R_scope.

(** * _parse_cosmo_factor_args, objects.py 842-905 *)

(** [cosmo_factor.create] with arguments that may be missing: [a ** None] is a type error. *)
Definition create_from (sf se : option R) : res cf :=
  match se with
  | None => Err TypeError
  | Some e => Ok (mkcf (Some e) sf)
  end.

Definition parse_cf (c : option cf) (sf se : option R) : res (option cf) :=
  match c, sf, se with
  | None, None, None => Ok None
  | Some c, None, None => Ok (Some c)
  | Some c, _, _ => do d <- create_from sf se; if cf_eq d c then Ok (Some c) else Err ValueError
  | None, Some s, Some e => Ok (Some (cf_create s e))
  | None, _, _ => Err ValueError
  end.

Section Units.
Variable U : Type.
Variable dimensionless : U.
(** How many of the second unit there are in one of the first; an error unless the dimensions agree. *)
Variable ratio : U -> U -> res R.
(** The unit that unyt gives a list of numbers and quantities. *)
Variable list_unit : option U -> list operand -> U.

(** An array with its unit. *)
Record uarr := mku { u_unit : U; u_arr : carr }.

(** What may be passed to the constructors: a cosmo array, a numpy array (of numbers), another iterable of
    numbers and cosmo quantities or arrays, a number. *)
Inductive input :=
| InCosmo (x : uarr)
| InNumbers (v : list R)
| InList (l : list operand)
| InScalar (v : R).

Record kwargs := mkkw {
  k_units : option U;
  k_cf : option cf;
  k_sf : option R;          (* scale_factor *)
  k_se : option R;          (* scale_exponent *)
  k_cm : option bool;
  k_vt : bool;              (* valid_transform *)
  k_comp : comp;
  k_bypass : bool           (* bypass_validation *)
}.

Definition or_null (c : option cf) : cf := match c with Some c => c | None => null_cf end.
Definition or_unit (u : option U) (d : U) : U := match u with Some u => u | None => d end.
Definition or_comp (c d : comp) : comp := match c with CNone => d | _ => c end.
Definition or_cm (c d : option bool) : option bool := match c with None => d | _ => c end.

Definition numbers_of (i : input) : list R :=
  match i with
  | InCosmo x => avals (u_arr x)
  | InNumbers v => v
  | InList l => flat_map op_vals l
  | InScalar v => [v]
  end.

(** objects.py 1146-1165; [cosmo_factor.create] is looked up on the argument [cosmo_factor], which hides
    the class. *)
Definition bypass (i : input) (k : kwargs) : res uarr :=
  do c <- match k_sf k with
          | None => Ok (or_null (k_cf k))
          | Some s => match k_cf k with
                      | None => Err AttributeError
                      | Some _ => create_from (Some s) (k_se k)
                      end
          end;
  Ok (mku (or_unit (k_units k) dimensionless)
          (mkarr (numbers_of i) (Some c) (k_cm k) (k_vt k) (k_comp k))).

(** objects.py 1167-1210: a view of the input, converted in place. *)
Definition from_cosmo (x : uarr) (k : kwargs) : res uarr :=
  let y := u_arr x in
  do own <- match acf y with
            | None => Err ValueError     (* None != cosmo_factor *)
            | Some c => Ok (if cf_eq c null_cf then None else Some c)
            end;
  do c <- parse_cf own (k_sf k) (k_se k);
  let z := mkarr (avals y) (match c with Some c => Some c | None => acf y end) (acm y) (avt y) (acomp y) in
  do w <- match k_cm k with
          | Some true => convert_to_comoving z
          | Some false => convert_to_physical z
          | None => Ok z
          end;
  do _ <- verify (acm w) (k_vt k);
  Ok (mku (u_unit x) (mkarr (avals w) (acf w) (acm w) (k_vt k) (or_comp (k_comp k) (acomp w)))).

(** objects.py 1212-1222 and 1262-1282. *)
Definition from_numbers (v : list R) (k : kwargs) : res uarr :=
  do c <- parse_cf (k_cf k) (k_sf k) (k_se k);
  let vt := match k_cm k with Some _ => k_vt k | None => false end in
  do _ <- verify (k_cm k) vt;
  Ok (mku (or_unit (k_units k) dimensionless) (mkarr v (Some (or_null c)) (k_cm k) vt (k_comp k))).

(** objects.py 1224-1255 and 1262-1282. *)
Definition from_list (l : list operand) (k : kwargs) : res uarr :=
  do p <- prepare (match k_cm k with Some b => b | None => true end) l;
  let cm := or_cm (k_cm k) (p_cm p) in
  do c <- parse_cf (k_cf k) (k_sf k) (k_se k);
  do c <- match c, l with
          | None, _ :: _ => h_preserve (p_cfs p)
          | _, _ => Ok c
          end;
  let vt := match cm with
            | Some _ => k_vt k
            | None => match k_cm k with None => false | Some _ => true end
            end in
  do _ <- verify cm vt;
  Ok (mku (list_unit (k_units k) (p_args p))
          (mkarr (flat_map op_vals (p_args p)) (Some (or_null c)) cm vt (or_comp (k_comp k) (p_comp p)))).

(** [cosmo_array(input, ...)], objects.py 1073-1282. *)
Definition new_array (i : input) (k : kwargs) : res uarr :=
  if k_bypass k then bypass i k
  else match i with
       | InCosmo x => from_cosmo x k
       | InNumbers v => from_numbers v k
       | InList l => from_list l k
       | InScalar _ => Err ValueError
       end.

(** [cosmo_quantity(input, ...)], objects.py 2402-2535.  [np.asarray] strips cosmology and unit, so the
    array constructor sees numbers; with [bypass_validation] it runs twice. *)
Definition new_quantity (i : input) (k : kwargs) : res uarr :=
  do _ <- (if k_bypass k then do _ <- bypass i k; Ok tt else Ok tt);
  do k' <- match i with
           | InList _ => Err RuntimeError
           | InCosmo x =>
               let y := u_arr x in
               let cm := or_cm (k_cm k) (acm y) in
               Ok (mkkw (Some (or_unit (k_units k) (u_unit x)))
                        (match k_cf k with None => acf y | c => c end)
                        (k_sf k) (k_se k) cm
                        (match cm with Some _ => k_vt k | None => false end)
                        (or_comp (k_comp k) (acomp y)) (k_bypass k))
           | _ =>
               Ok (mkkw (k_units k) (k_cf k) (k_sf k) (k_se k) (k_cm k)
                        (match k_cm k with Some _ => k_vt k | None => false end)
                        (k_comp k) (k_bypass k))
           end;
  do r <- new_array (InNumbers (numbers_of i)) k';
  if (1 <? zlen (avals (u_arr r)))%Z then Err RuntimeError else Ok r.

(** [from_astropy], objects.py 1860-1918, and [from_pint], 1920-1980: unyt makes the numbers and the unit;
    [valid_transform] is stored under a misspelt name. *)
Definition from_foreign (v : list R) (u : U) (c : cf) (cm : option bool) (vt : bool) (co : comp) : uarr :=
  mku u (mkarr v (Some c) cm true co).

(** * Pickling, objects.py 1330-1368 *)

(** What unyt's state holds. *)
Definition ustate : Type := U * list R.
Definition cstate : Type := (option cf * option bool * comp * bool) * ustate.

Definition reduce_state (x : uarr) : cstate :=
  let y := u_arr x in ((acf y, acm y, acomp y, avt y), (u_unit x, avals y)).

Definition set_state (s : cstate) : uarr :=
  let '((c, cm, co, vt), (u, v)) := s in mku u (mkarr v c cm vt co).

(** * Conversions with units *)

(** unyt's conversion of the numbers ([convert_to_units], [in_units], [to]). *)
Definition change_unit (v : U) (x : uarr) : res uarr :=
  do r <- ratio (u_unit x) v;
  let y := u_arr x in
  Ok (mku v (mkarr (map (Rmult r) (avals y)) (acf y) (acm y) (avt y) (acomp y))).

Definition on_arr (f : carr -> res carr) (x : uarr) : res uarr :=
  do y <- f (u_arr x); Ok (mku (u_unit x) y).

(** In place: the array afterwards and the exception. *)
Definition in_place (f : uarr -> res uarr) (units : option U) (x : uarr) : uarr * res unit :=
  match (match units with None => Ok x | Some v => change_unit v x end) with
  | Err e => (x, Err e)
  | Ok y => match f y with
            | Err e => (y, Err e)
            | Ok z => (z, Ok tt)
            end
  end.

(** [convert_to_comoving(units)] 1410-1456 and [convert_to_physical(units)] 1458-1505. *)
Definition convert_to_comoving_u := in_place (on_arr convert_to_comoving).
Definition convert_to_physical_u := in_place (on_arr convert_to_physical).

(** [to_physical(units)], 1507-1547. *)
Definition to_physical_u (units : option U) (x : uarr) : res uarr :=
  let y := u_arr x in
  if negb (avt y) && is_true (acm y) then Err InvalidConversion
  else do c <- change_unit (or_unit units (u_unit x)) x; on_arr convert_to_physical c.

(** [to_comoving(units)], 1549-1589. *)
Definition to_comoving_u (units : option U) (x : uarr) : res uarr :=
  let y := u_arr x in
  if negb (avt y) && negb (is_false (acm y)) then Err InvalidConversion
  else do c <- change_unit (or_unit units (u_unit x)) x; on_arr convert_to_comoving c.

(** [to(units, comoving=cm)], 1591-1676. *)
Definition to_u (units : option U) (cm : option bool) (x : uarr) : res uarr :=
  let y := u_arr x in
  if negb (is_none cm) && negb (avt y) && negb (cm_eqb cm (acm y)) then Err InvalidConversion
  else
    do c <- match units with None => Ok x | Some v => change_unit v x end;
    match cm with
    | Some true => on_arr convert_to_comoving c
    | Some false => on_arr convert_to_physical c
    | None => Ok c
    end.

(** [to_value], [to_physical_value] and [to_comoving_value], 1678-1827. *)
Definition to_value_u (units : option U) (cm : option bool) (x : uarr) : res (list R) :=
  do r <- to_u units cm x; Ok (avals (u_arr r)).
Definition to_physical_value_u (units : option U) (x : uarr) := to_value_u units (Some false) x.
Definition to_comoving_value_u (units : option U) (x : uarr) := to_value_u units (Some true) x.
End Units.

(** [compatible_with_comoving] and [compatible_with_physical], 1829-1857, as truth values.  The factor of
    an array whose [cosmo_factor] was dropped is looked up only if needed. *)
Definition is_one (c : option cf) : res bool :=
  match c with
  | None => Err AttributeError
  | Some c => Ok (match a_factor c with Some f => Reqb f 1 | None => false end)
  end.
Definition compatible_comoving (x : carr) : res bool :=
  if is_true (acm x) then Ok true else is_one (acf x).
Definition compatible_physical (x : carr) : res bool :=
  if negb (is_true (acm x)) then Ok true else is_one (acf x).

Arguments mku {U}. Arguments u_unit {U}. Arguments u_arr {U}.
Arguments InCosmo {U}. Arguments InNumbers {U}. Arguments InList {U}. Arguments InScalar {U}.
Arguments mkkw {U}. Arguments k_units {U}. Arguments k_cf {U}. Arguments k_sf {U}. Arguments k_se {U}.
Arguments k_cm {U}. Arguments k_vt {U}. Arguments k_comp {U}. Arguments k_bypass {U}.
Arguments or_unit {U}. Arguments numbers_of {U}. Arguments bypass {U}. Arguments from_cosmo {U}.
Arguments from_numbers {U}. Arguments from_list {U}. Arguments new_array {U}. Arguments new_quantity {U}.
Arguments from_foreign {U}. Arguments reduce_state {U}. Arguments set_state {U}. Arguments change_unit {U}.
Arguments on_arr {U}. Arguments in_place {U}. Arguments convert_to_comoving_u {U}.
Arguments convert_to_physical_u {U}. Arguments to_physical_u {U}. Arguments to_comoving_u {U}.
Arguments to_u {U}. Arguments to_value_u {U}. Arguments to_physical_value_u {U}.
Arguments to_comoving_value_u {U}.

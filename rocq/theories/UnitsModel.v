(** Model of SWIFTUnits (metadata/objects.py 761-824) and of the default unit system of the writer
    (metadata/writer/unit_systems.py).  [find_nearest_base_unit] is [nearest] in WriterModel.v.

    Simplifications: sizes of units are real numbers in cgs units (the ampere counts as 1); what unyt does
    with units that are not positive is left out; the sizes of the astronomical units are parameters. *)
From Coq Require Import String Ascii List ZArith QArith Qreals Reals Bool.
From Verif Require Import Base NamesModel MetaModel WriterModel.
Import ListNotations.
Open Scope R_scope.

(** The units of unyt that are no powers of ten of the cgs units. *)
Record consts := mkconsts { k_mearth : R; k_msun : R; k_rearth : R; k_pc : R; k_year : R }.

(** [possible_base_units], metadata/unit/unit_types.py 15-30. *)
Definition mass_units (c : consts) : list R := [1; 1000; k_mearth c; k_msun c].
Definition length_units (c : consts) : list R :=
  [1; 100; 100000; k_rearth c; k_pc c; 1000 * k_pc c; 1000000 * k_pc c; 1000000000 * k_pc c].
Definition time_units (c : consts) : list R := [1; k_year c; 1000000 * k_year c; 1000000000 * k_year c].
Definition current_units : list R := [1].
Definition temperature_units : list R := [1].

(** The keys of [unit_names_to_unyt], unit_types.py 6-12; all are cgs units. *)
Definition unit_names : list name :=
  map txt ["Unit mass in cgs (U_M)"; "Unit length in cgs (U_L)"; "Unit time in cgs (U_t)";
           "Unit current in cgs (U_I)"; "Unit temperature in cgs (U_T)"]%string.

(** [value[0]]: a number, or something else. *)
Definition item_0 (v : hval) : res (option R) :=
  match v with
  | HArr (q :: _) => Ok (Some (Q2R q))
  | HBytes (c :: _) => Ok (Some (INR (nat_of_ascii c)))
  | HStr (_ :: _) | HStrs (_ :: _) => Ok None
  | _ => Err IndexError
  end.

(** [unyt_quantity(value[0], units=unit_names_to_unyt[name])], 803-805. *)
Definition quantity (kv : name * hval) : res (name * R) :=
  do x <- item_0 (snd kv);
  if existsb (name_eqb (fst kv)) unit_names
  then match x with Some r => Ok (fst kv, r) | None => Err RuntimeError end
  else Err KeyError.

(** [self.units[key]] *)
Definition named (u : list (name * R)) (key : string) : res R :=
  match dict_get u (txt key) with Some r => Ok r | None => Err KeyError end.

(** [get_unit_dictionary], 794-824; [None]: the file has no group [Units]. *)
Definition get_unit_dictionary (c : consts) (attrs : option dict) : res usys :=
  match attrs with
  | None => Err KeyError
  | Some d =>
      do u <- all_ok (map quantity d);
      do m <- named u "Unit mass in cgs (U_M)"; do mass <- nearest (mass_units c) m;
      do l <- named u "Unit length in cgs (U_L)"; do length <- nearest (length_units c) l;
      do t <- named u "Unit time in cgs (U_t)"; do time <- nearest (time_units c) t;
      do i <- named u "Unit current in cgs (U_I)"; do current <- nearest current_units i;
      do k <- named u "Unit temperature in cgs (U_T)"; do temperature <- nearest temperature_units k;
      Ok (mkusys mass length time temperature current 1)
  end.

(** [cosmo_units], unit_systems.py 16-21: the unit of time is a megaparsec divided by a kilometre, in seconds. *)
Definition cosmo_units (c : consts) : usys :=
  mkusys (10000000000 * k_msun c) (1000000 * k_pc c) (1000000 * k_pc c / 100000) 1 1 1.

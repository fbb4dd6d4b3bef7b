(** Model of a file of the snapshot writer as the reader sees it: the layout of snapshot_writer.py 195-231,
    233-280, 743-853 and the way of a field from its name to its array (reader.py 97-191, 590-660).  The
    writer is in WriterModel.v, the metadata in MetaModel.v, the attributes of datasets in LabelModel.v.

    Attributes of the file are rational numbers: [num] tells which is stored for a real number. *)
From Coq Require Import String Ascii List Arith ZArith QArith Qreals Reals Bool.
From Verif Require Import Base NamesModel MetaModel CosmoModel CtorModel WriterModel LabelModel.
Import ListNotations.
Open Scope list_scope.

(** The handles of required_fields.py. *)
Definition handle (field : string) : name :=
  if String.eqb field "coordinates" then txt "Coordinates"
  else if String.eqb field "particle_ids" then txt "ParticleIDs"
  else if String.eqb field "velocities" then txt "Velocities"
  else if String.eqb field "masses" then txt "Masses"
  else if String.eqb field "smoothing_lengths" then txt "SmoothingLengths"
  else if String.eqb field "internal_energy" then txt "InternalEnergy"
  else [].

(** The keys of particle_types.py. *)
Definition part_type (t : nat) : name := txt "PartType" ++ decimal t.

(** [{**d, **extra}]: an entry is replaced at its place, new ones are appended. *)
Fixpoint set_entry (k : name) (v : hval) (d : dict) : dict :=
  match d with
  | [] => [(k, v)]
  | (n, w) :: d => if name_eqb n k then (n, v) :: d else (n, w) :: set_entry k v d
  end.
Definition merged (d extra : dict) : dict := fold_left (fun d kv => set_entry (fst kv) (snd kv) d) extra d.

Section Stored.
Variable num : R -> Q.

(** [attrs] of [_write_metadata], 776-787.  The dimension is the length of the box (checked by the
    constructor). *)
Definition standard_header (f : file) : dict :=
  [ (txt "BoxSize", HArr (map num (f_box f)));
    (txt "NumPart_Total", HArr (map inject_Z (f_counts f)));
    (txt "NumPart_Total_HighWord", HArr (repeat 0%Q 6));
    (txt "Flag_Entropy_ICs", HNum 0);
    (txt "Dimension", HArr [inject_Z (zlen (f_box f))]);
    (txt "Scale-factor", HArr [num (f_a f)]);
    (txt "NumFilesPerSnapshot", HNum 1);
    (txt "NumPart_ThisFile", HArr (map inject_Z (f_counts f)));
    (txt "MassTable", HArr (map num (f_masses f))) ].

(** [_write_units], 802-853. *)
Definition unit_attributes (u : usys) : dict :=
  [ (txt "Unit mass in cgs (U_M)", HArr [num (uM u)]);
    (txt "Unit length in cgs (U_L)", HArr [num (uL u)]);
    (txt "Unit time in cgs (U_t)", HArr [num (ut u)]);
    (txt "Unit current in cgs (U_I)", HArr [1%Q]);
    (txt "Unit temperature in cgs (U_T)", HArr [num (uT u)]) ].

(** The groups of the file; h5py lists members in the order of their names.  [extra]: the extra header, 789-790;
    none is an empty one. *)
Definition type_entry (g : nat * list (string * dset)) : name * ginfo :=
  (part_type (fst g), mk_ginfo [] (sorted (map (fun nd => handle (fst nd)) (snd g)))).

Definition hdf (extra : dict) (f : file) : mfile :=
  let groups := (txt "Header", mk_ginfo (merged (standard_header f) extra) [])
                :: (txt "Units", mk_ginfo (unit_attributes (f_units f)) [])
                :: map type_entry (f_groups f) in
  mk_mfile groups (sorted (map fst groups)) None None None None.

(** The attributes of a dataset, [get_attributes] 257-278. *)
Definition dataset_attributes (a : attrs) : attributes :=
  [ (txt "Conversion factor to CGS (not including cosmological corrections)", ANums [num (at_cgs a)]);
    (txt "Conversion factor to physical CGS (including cosmological corrections)", ANums [num (at_phys a)]);
    (txt "U_I exponent", ANums [at_I a]);
    (txt "U_L exponent", ANums [at_L a]);
    (txt "U_M exponent", ANums [at_M a]);
    (txt "U_T exponent", ANums [at_T a]);
    (txt "U_t exponent", ANums [at_t a]);
    (txt "a-scale exponent", ANums [num (at_a a)]);
    (txt "h-scale exponent", ANums [0%Q]) ].

(** [handle[path]] for datasets. *)
Definition datasets (f : file) : list (name * dset) :=
  flat_map (fun g => map (fun nd => (part_type (fst g) ++ slash :: handle (fst nd), snd nd)) (snd g)) (f_groups f).
Definition find_dataset (f : file) (path : name) : option dset :=
  option_map snd (find (fun pd => name_eqb (fst pd) path) (datasets f)).

(** [data.<group>.<field>] without a mask, with the metadata [m] of the file: the last field of the name
    counts (reader.py 600-660). *)
Definition load (show : aval -> name) (ru : usys -> usys) (f : file) (m : list (name * mval)) (group field : name)
  : res (option made) :=
  match dict_get m (group ++ txt "_properties"), dict_get m (txt "a") with
  | Some (VGroup g), Some (VNum a) =>
      match dict_get (combine (gm_names g) (gm_paths g)) field with
      | Some path =>
          let d := find_dataset f path in
          getter show (ru (f_units f)) (Q2R a) false None field
                 (option_map (fun d => dataset_attributes (ds_attrs d)) d)
                 (match d with Some d => Ok (ds_vals d) | None => Err KeyError end)
      | None => Err AttributeError
      end
  | _, _ => Err AttributeError
  end.
End Stored.

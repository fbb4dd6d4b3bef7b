(** Model of the metadata objects: metadata/objects.py 48-386, 454-485, 513-558, 587-759 and
    827-1017, 1354-1649, with
    the tables of metadata/metadata/metadata_fields.py and particle_types.py.  Definitions only.

    Numbers are rational; units are named by their dimension.  Text is ASCII.  The object's attributes
    are a log of assignments, of which the last one to a name counts ([dict_get]). *)
From Coq Require Import String Ascii List Arith ZArith QArith Bool.
From Verif Require Import Base NamesModel SubsetModel.
Import ListNotations.
Open Scope nat_scope.

Inductive dimension : Set := DMass | DLength | DTime.

(** A value of an HDF5 attribute as h5py gives it: an array of numbers, a number, text, bytes or an
    array of texts. *)
Inductive hval : Set :=
| HArr (l : list Q)
| HNum (x : Q)
| HStr (s : name)
| HBytes (s : name)
| HStrs (l : list name).

Definition dict := list (name * hval).

(** The metadata of one group, 587-759. *)
Record group_meta : Set := mk_group_meta {
  gm_group : name;
  gm_name : name;
  gm_paths : list name;
  gm_names : list name;
  gm_columns : list (name * option (list name));
  gm_attributes : list (name * name)
}.

(** A mapping table, 513-558: the values by attribute name. *)
Record mapping_table : Set := mk_mapping_table {
  mt_data : list (list Q);
  mt_x : list name;
  mt_y : list name;
  mt_x_name : name;
  mt_y_name : name;
  mt_values : list (name * Q)
}.

(** The values of attributes of the metadata object. *)
Inductive mval : Set :=
| VHeader (h : hval)                             (* as stored *)
| VNum (x : Q)
| VUnit (x : Q) (d : dimension)                  (* unyt_quantity *)
| VCosmo (l : list Q) (scalar : bool) (d : dimension) (a : mval) (exponent : Q) (comoving valid : bool)
| VMasses (l : list (name * option (Q * dimension)))   (* MassTable *)
| VText (s : name)
| VDate (s : name)                               (* the date written as s *)
| VDict (d : dict)
| VNone
| VEdges (l : list Q)                            (* per time *)
| VSpeed (x : Q)                                 (* length per time *)
| VColumns (l : list (name * list name))
| VTable (t : mapping_table)
| VGroup (g : group_meta)
| VCosmology (d : dict)
| VInt (n : Z).

(** A group of the file: its attributes and the names of its members. *)
Record ginfo : Set := mk_ginfo { gi_attrs : dict; gi_keys : list name }.

(** The parts of the file that are read.  [mf_groups]: groups by path; [mf_keys]: the names at the top
    level; [mf_columns]: SubgridScheme/NamedColumns; [mf_subgrid]: the members of SubgridScheme (those
    whose names end with Mapping are tables). *)
Record mfile : Set := mk_mfile {
  mf_groups : list (name * ginfo);
  mf_keys : list name;
  mf_columns : option (list (name * list name));
  mf_subgrid : option (list (name * list (list Q)));
  mf_edges : option (list Q);
  mf_speed : option Q
}.

(** * Tables *)

(** metadata_fields.py, [metadata_fields_to_read]. *)
Definition metadata_fields_to_read : list (name * name) :=
  [ (txt "Code", txt "code"); (txt "Cosmology", txt "cosmology_raw"); (txt "Header", txt "header");
    (txt "GravityScheme", txt "gravity_scheme"); (txt "HydroScheme", txt "hydro_scheme");
    (txt "InternalCodeUnits", txt "internal_code_units"); (txt "Parameters", txt "parameters");
    (txt "Policy", txt "policy"); (txt "RuntimePars", txt "runtime_pars");
    (txt "SubgridScheme", txt "subgrid_scheme"); (txt "StarsScheme", txt "stars_scheme");
    (txt "UnusedParameters", txt "unused_parameters") ].

(** The table [header_unpack_single_float] and its units; the unit with the name. *)
Definition header_unpack_single_float : list (name * list (name * option dimension)) :=
  [ (txt "Time", [(txt "time", Some DTime); (txt "t", Some DTime)]);
    (txt "Dimension", [(txt "dimension", None)]);
    (txt "Redshift", [(txt "redshift", None); (txt "z", None)]);
    (txt "Scale-factor", [(txt "scale_factor", None)]) ].

(** metadata_fields.py, [header_unpack_arrays]. *)
Definition header_unpack_arrays : list (name * name) :=
  [ (txt "BoxSize", txt "boxsize"); (txt "NumPart_ThisFile", txt "num_part");
    (txt "NumGroup_ThisFile", txt "num_group"); (txt "NumSubhalos_ThisFile", txt "num_subhalo");
    (txt "CanHaveTypes", txt "has_type"); (txt "NumFilesPerSnapshot", txt "num_files_per_snapshot");
    (txt "OutputType", txt "output_type"); (txt "SubhaloTypes", txt "subhalo_types") ].

(** metadata_fields.py, [header_unpack_mass_tables]. *)
Definition header_unpack_mass_tables : list (name * name) :=
  [ (txt "MassTable", txt "mass_table"); (txt "InitialMassTable", txt "initial_mass_table") ].

(** metadata_fields.py, [header_unpack_string]. *)
Definition header_unpack_string : list (name * name) :=
  [ (txt "RunName", txt "run_name"); (txt "SelectOutput", txt "select_output");
    (txt "OutputType", txt "output_type"); (txt "System", txt "system_name") ].

(** particle_types.py:3-12. *)
Definition particle_name_underscores : list (name * name) :=
  [ (txt "PartType0", txt "gas"); (txt "PartType1", txt "dark_matter"); (txt "PartType2", txt "boundary");
    (txt "PartType3", txt "sinks"); (txt "PartType4", txt "stars"); (txt "PartType5", txt "black_holes");
    (txt "PartType6", txt "neutrinos"); (txt "PartType7", txt "sidm") ].

Definition one : Q := 1%Q.
Definition zero : Q := 0%Q.
Definition is_zero (x : Q) : bool := Qeq_bool x zero.

(** * Items *)

(** [value[i]]; [None]: IndexError (a number cannot be indexed).  Items of bytes are numbers. *)
Definition item_at (h : hval) (i : nat) : option mval :=
  match h with
  | HArr l => option_map VNum (nth_error l i)
  | HNum _ => None
  | HStr s => option_map (fun c => VHeader (HStr [c])) (nth_error s i)
  | HBytes s => option_map (fun c => VNum (inject_Z (Z.of_nat (nat_of_ascii c)))) (nth_error s i)
  | HStrs l => option_map (fun s => VHeader (HStr s)) (nth_error l i)
  end.

Definition first_item (h : hval) : res mval :=
  match item_at h 0 with Some v => Ok v | None => Err IndexError end.

(** [unyt.unyt_quantity(value, units)]: the value has to be a number. *)
Definition quantity (d : dimension) (v : mval) : res mval :=
  match v with VNum x => Ok (VUnit x d) | _ => Err RuntimeError end.

(** * The header

    The header attribute is a dictionary, or None when the file has no such group; then
    [self.header[field]] is a TypeError. *)
Definition look (header : option dict) (field : name) : res (option hval) :=
  match header with None => Err TypeError | Some d => Ok (dict_get d field) end.

(** 141-149 [get_metadata]. *)
Definition get_metadata (f : mfile) : list (name * mval) :=
  map (fun fn => (snd fn, match dict_get (mf_groups f) (fst fn) with
                          | Some g => VDict (gi_attrs g)
                          | None => VNone
                          end)) metadata_fields_to_read.

(** 166-200: one field of [header_unpack_single_float]; a KeyError skips it. *)
Definition unpack_single (header : option dict) (fn : name * list (name * option dimension))
  : res (list (name * mval)) :=
  do h <- look header (fst fn);
  match h with
  | None => Ok []
  | Some h =>
      all_ok (map (fun nd => do v <- first_item h;
                             do w <- (match snd nd with Some d => quantity d v | None => Ok v end);
                             Ok (fst nd, w)) (snd fn))
  end.

Definition concat_ok {A} (l : list (res (list A))) : res (list A) :=
  do ls <- all_ok l; Ok (concat ls).

Definition unpack_singles (header : option dict) : res (list (name * mval)) :=
  concat_ok (map (unpack_single header) header_unpack_single_float).

(** 201-207: the scale factor, with its default. *)
Definition scale_factor_of (log : list (name * mval)) : mval * list (name * mval) :=
  match dict_get log (txt "scale_factor") with
  | Some v => (v, [(txt "a", v)])
  | None => (VNum one, [(txt "a", VNum one); (txt "scale_factor", VNum one)])
  end.

Section Meta.

(** What unyt raises for an array that is not numeric. *)
Variable text_error : pyerr.
(** Whether [datetime.strptime] reads a text, in either of the two formats. *)
Variable is_date : name -> bool.
(** Whether the cosmology can be converted (conversions.py). *)
Variable cosmology_ok : dict -> res unit.

(** 225-261: one array.  Only the box size has a unit, and it has cosmology arguments. *)
Definition unpack_array (header : option dict) (a : mval) (fn : name * name) : res (list (name * mval)) :=
  do h <- look header (fst fn);
  match h with
  | None => Ok []
  | Some h =>
      if name_eqb (snd fn) (txt "boxsize") then
        match h with
        | HArr l => Ok [(snd fn, VCosmo l false DLength a one true true)]
        | HNum x => Ok [(snd fn, VCosmo [x] true DLength a one true true)]
        | _ => Err text_error
        end
      else Ok [(snd fn, VHeader h)]
  end.

Definition unpack_arrays (header : option dict) (a : mval) : res (list (name * mval)) :=
  concat_ok (map (unpack_array header a) header_unpack_arrays).

(** 467-485 [MassTable]; a position outside of the table gives None. *)
Definition mass_table (h : hval) : res mval :=
  do l <- all_ok (map (fun i => match item_at h i with
                                | Some v => do q <- quantity DMass v;
                                            Ok (match q with VUnit x d => Some (x, d) | _ => None end)
                                | None => Ok None
                                end) (seq 0 (length particle_name_underscores)));
  Ok (VMasses (combine (map snd particle_name_underscores) l)).

(** 263-284: a missing table is one of zeros. *)
Definition unpack_mass_table (header : option dict) (fn : name * name) : res (list (name * mval)) :=
  do h <- look header (fst fn);
  do v <- mass_table (match h with
                      | Some h => h
                      | None => HArr (repeat zero (length particle_name_underscores))
                      end);
  Ok [(snd fn, v)].

(** 286-300: bytes are decoded (UTF-8 of ASCII text); a missing text is empty. *)
Definition decoded (h : hval) : mval :=
  match h with HBytes s => VText s | HStr s => VText s | _ => VHeader h end.

Definition unpack_string (header : option dict) (fn : name * name) : res (list (name * mval)) :=
  do h <- look header (fst fn);
  Ok [(snd fn, match h with Some h => decoded h | None => VText [] end)].

(** 302-330: the date; what cannot be read as one stays a text. *)
Definition unpack_date (header : option dict) : res (list (name * mval)) :=
  do h1 <- look header (txt "SnapshotDate");
  do h2 <- look header (txt "Snapshot date");
  match decoded (match h1, h2 with Some h, _ => h | None, Some h => h | None, None => HBytes [] end) with
  | VText s => Ok [(txt "snapshot_date", if is_date s then VDate s else VText s)]
  | _ => Err TypeError
  end.

(** 350-358: one particle number per type; [self.num_part] must be there. *)
Definition unpack_numbers (log : list (name * mval)) : res (list (name * mval)) :=
  match dict_get log (txt "num_part") with
  | Some (VHeader h) =>
      Ok (map (fun ip => (txt "n_" ++ snd (snd ip),
                          match item_at h (fst ip) with Some v => v | None => VNum zero end))
              (combine (seq 0 (length particle_name_underscores)) particle_name_underscores))
  | _ => Err AttributeError
  end.

(** 360-365: None when the scheme or its index is missing. *)
Definition gas_gamma (hydro : option mval) : mval :=
  match hydro with
  | Some (VDict d) => match dict_get d (txt "Adiabatic index") with Some h => VHeader h | None => VNone end
  | _ => VNone
  end.

(** 151-367 [postprocess_header]: the assignments, after those of [log]. *)
Definition postprocess_header (f : mfile) (log : list (name * mval)) : res (list (name * mval)) :=
  let header := match dict_get log (txt "header") with Some (VDict d) => Some d | _ => None end in
  do singles <- unpack_singles header;
  let (a, scale) := scale_factor_of (log ++ singles) in
  do arrays <- unpack_arrays header a;
  do tables <- concat_ok (map (unpack_mass_table header) header_unpack_mass_tables);
  do strings <- concat_ok (map (unpack_string header) header_unpack_string);
  do date <- unpack_date header;
  let radiation :=
    [ (txt "photon_group_edges", match mf_edges f with Some l => VEdges l | None => VNone end);
      (txt "reduced_lightspeed", match mf_speed f with Some x => VSpeed x | None => VNone end) ] in
  do numbers <- unpack_numbers (log ++ singles ++ scale ++ arrays);
  Ok (singles ++ scale ++ arrays ++ tables ++ strings ++ date ++ radiation ++ numbers
        ++ [(txt "gas_gamma", gas_gamma (dict_get log (txt "hydro_scheme")))]).

(** 369-386 [extract_cosmology].  The truth of an array is that of its only item (numpy >= 2.2 refuses
    empty arrays as well). *)
Definition truth (h : hval) : res bool :=
  match h with
  | HArr [x] => Ok (negb (is_zero x))
  | HNum x => Ok (negb (is_zero x))
  | HStr s | HBytes s | HStrs [s] => Ok (match s with [] => false | _ => true end)
  | HArr _ | HStrs _ => Err ValueError
  end.

Definition extract_cosmology (log : list (name * mval)) : res (list (name * mval)) :=
  let cosmo := match dict_get log (txt "cosmology_raw") with Some (VDict d) => d | _ => [] end in
  do run <- (match dict_get cosmo (txt "Cosmological run") with Some h => truth h | None => Ok false end);
  if run then do _ <- cosmology_ok cosmo; Ok [(txt "cosmology", VCosmology cosmo)]
  else Ok [(txt "cosmology", VNone)].

(** * Groups *)

(** [np.where(l != 0)[0]] *)
Definition nonzero (l : list Q) : list nat :=
  flat_map (fun ix => if is_zero (snd ix) then [] else [fst ix]) (combine (seq 0 (length l)) l).

(** A decimal number as text. *)
Fixpoint digits_from (fuel n : nat) (acc : name) : name :=
  match fuel with
  | O => acc
  | S fuel' =>
      let d := ascii_of_nat (48 + n mod 10) in
      match n / 10 with O => d :: acc | q => digits_from fuel' q (d :: acc) end
  end.
Definition decimal (n : nat) : name := digits_from (S n) n [].

Fixpoint starts_with (w s : name) : bool :=
  match w, s with
  | [], _ => true
  | a :: w', b :: s' => Ascii.eqb a b && starts_with w' s'
  | _, [] => false
  end.

Definition ends_with (w s : name) : bool := starts_with (rev w) (rev s).

(** [sorted] of texts. *)
Fixpoint name_leb (x y : name) : bool :=
  match x, y with
  | [], _ => true
  | _, [] => false
  | a :: s, b :: t =>
      if nat_of_ascii a <? nat_of_ascii b then true
      else if nat_of_ascii b <? nat_of_ascii a then false else name_leb s t
  end.
Fixpoint insert (x : name) (l : list name) : list name :=
  match l with
  | [] => [x]
  | y :: l' => if name_leb x y then x :: l else y :: insert x l'
  end.
Definition sorted (l : list name) : list name := fold_right insert [] l.

(** 992-1002, 1376-1391, 1522-1531, 1609-1618 [present_groups].  The type of file decides.  Headers
    whose counts are no array, or whose subhalo types are no array of text, are refused here with one
    error (the code fails later, with an error that depends on the value). *)
Definition present_groups (k : file_kind) (f : mfile) (log : list (name * mval)) : res (list name) :=
  match k with
  | KSnapshot =>
      match dict_get log (txt "has_type"), dict_get log (txt "num_part") with
      | Some (VHeader (HArr l)), Some _ => Ok (map (fun i => txt "PartType" ++ decimal i) (nonzero l))
      | None, Some (VHeader (HArr l)) => Ok (map (fun i => txt "PartType" ++ decimal i) (nonzero l))
      | _, None => Err AttributeError
      | _, _ => Err ValueError
      end
  | KLineOfSight => Ok (sorted (filter (starts_with (txt "LOS_")) (mf_keys f)))
  | KFOF => Ok [txt "Groups"]
  | KSOAP =>
      match dict_get log (txt "subhalo_types") with
      | Some (VHeader (HStrs l)) => Ok l
      | None => Err AttributeError
      | Some _ => Err TypeError
      end
  end.

(** 1005-1017, 1394-1403, 1534-1543, 1621-1632 [present_group_names]. *)
Definition group_name (k : file_kind) (group : name) : res name :=
  match k with
  | KSnapshot => match dict_get particle_name_underscores group with Some n => Ok n | None => Err KeyError end
  | KLineOfSight => Ok (lower group)
  | KFOF => Ok (txt "fof_groups")
  | KSOAP => soap_name_underscore group
  end.

Definition in_names (n : name) (l : list name) : bool := existsb (name_eqb n) l.

Definition last_part (path : name) : name := last (split path) [].

(** 662-758: the metadata of a group.  [columns]: the named columns of the metadata object. *)
Definition load_group (expose : bool) (f : mfile) (present : list name) (columns : list (name * list name))
  (group gname : name) : res group_meta :=
  match dict_get (mf_groups f) group with
  | None => Err KeyError
  | Some g =>
      let items := filter (fun i => negb (in_names (group ++ slash :: i) present)) (gi_keys g) in
      let paths := map (fun i => group ++ slash :: i) items in
      do cols <- all_ok (map (fun p => match dict_get columns (last_part p) with
                                       | Some c => do c' <- format_columns c; Ok (p, Some c')
                                       | None => Ok (p, None)
                                       end) paths);
      Ok (mk_group_meta group gname paths (map snake items) cols
            (if expose then map (fun ka => (snake (fst ka), fst ka)) (gi_attrs g) else []))
  end.

(** 107-139 [load_groups]. *)
Definition load_groups (k : file_kind) (f : mfile) (log : list (name * mval)) : res (list (name * mval)) :=
  do groups <- present_groups k f log;
  do names <- all_ok (map (group_name k) groups);
  let columns := match dict_get log (txt "named_columns") with Some (VColumns c) => c | _ => [] end in
  let expose := match k with KLineOfSight => true | _ => false end in
  all_ok (map (fun gn => do m <- load_group expose f groups columns (fst gn) (snd gn);
                         Ok (snd gn ++ txt "_properties", VGroup m)) (combine groups names)).

(** * Mappings *)

Definition is_letter (c : ascii) : bool := is_lower c || is_upper c.

Fixpoint letters (s : name) : nat :=
  match s with
  | [] => 0
  | c :: s' => if is_letter c then S (letters s') else 0
  end.

(** The largest of [n], ..., 0 at which the text goes on with [w]; greedy letters are given back one
    by one. *)
Fixpoint back (w s : name) (n : nat) : option nat :=
  if starts_with w (skipn n s) then Some n
  else match n with O => None | S n' => back w s n' end.

(** The pattern: letters, To, letters, Mapping; tried from the beginning, longest first. *)
Fixpoint match_from (s : name) (n : nat) : option (name * name) :=
  let here :=
    if starts_with (txt "To") (skipn n s) then
      let r := skipn (n + 2) s in
      match back (txt "Mapping") r (letters r) with
      | Some j => Some (firstn n s, firstn j r)
      | None => None
      end
    else None in
  match here with
  | Some xy => Some xy
  | None => match n with O => None | S n' => match_from s n' end
  end.
Definition match_mapping (key : name) : option (name * name) := match_from key (letters key).

(** 554-556: all pairs of columns; [data[x][y]] outside is an IndexError. *)
Definition mapping_values (data : list (list Q)) (xs ys : list name) : res (list (name * Q)) :=
  concat_ok
    (map (fun ix =>
            all_ok (map (fun iy =>
                           match nth_error data (fst ix) with
                           | Some row =>
                               match nth_error row (fst iy) with
                               | Some v => Ok ((lower (snd ix) ++ txt "_to_" ++ lower (snd iy) : name), v)
                               | None => Err IndexError
                               end
                           | None => Err IndexError
                           end) (combine (seq 0 (length ys)) ys)))
         (combine (seq 0 (length xs)) xs)).

Fixpoint first_starting (w : name) (l : list (name * list name)) : option (name * list name) :=
  match l with
  | [] => None
  | (k, v) :: l' => if starts_with w k then Some (k, v) else first_starting w l'
  end.

(** 952-988: one table. *)
Definition mapping_metadata (columns : list (name * list name)) (kd : name * list (list Q)) : res (list (name * mval)) :=
  match match_mapping (fst kd) with
  | None => Ok []
  | Some (x, y) =>
      let x' := if name_eqb x (txt "Grain") then txt "Dust" else x in
      match first_starting x' columns with
      | None => Err IndexError
      | Some (kx, cx) =>
          match first_starting y columns with
          | None => Err IndexError
          | Some (ky, cy) =>
              do vals <- mapping_values (snd kd) cx cy;
              Ok [(snake (fst kd), VTable (mk_mapping_table (snd kd) cx cy kx ky vals))]
          end
      end
  end.

Definition get_mapping_metadata (f : mfile) (columns : list (name * list name)) : res (list (name * mval)) :=
  match mf_subgrid f with
  | None => Ok []
  | Some l => concat_ok (map (mapping_metadata columns) (filter (fun kd => ends_with (txt "Mapping") (fst kd)) l))
  end.

(** * The objects *)

(** 1603-1606 [unpack_subhalo_number]: [int] of the item. *)
Definition truncate (x : Q) : Z := Z.quot (Qnum x) (Z.pos (Qden x)).
Definition unpack_subhalo_number (log : list (name * mval)) : res (list (name * mval)) :=
  match dict_get log (txt "num_subhalo") with
  | None => Err AttributeError
  | Some (VHeader h) =>
      match item_at h 0 with
      | None => Err IndexError
      | Some (VNum x) => Ok [(txt "n_subhalos", VInt (truncate x))]
      | Some _ => Err ValueError
      end
  | Some _ => Err TypeError
  end.

(** The constructors: 891-909, 1504-1519, 1585-1601. *)
Definition read_metadata (k : file_kind) (f : mfile) : res (list (name * mval)) :=
  let log0 := get_metadata f in
  do log1 <- (match k with
              | KSnapshot | KLineOfSight =>
                  let columns := match mf_columns f with Some c => c | None => [] end in
                  do m <- get_mapping_metadata f columns;
                  Ok (log0 ++ (txt "named_columns", VColumns columns) :: m)
              | _ => Ok log0
              end);
  do post <- postprocess_header f log1;
  let log2 := log1 ++ post in
  do sub <- (match k with KSOAP => unpack_subhalo_number log2 | _ => Ok [] end);
  let log3 := log2 ++ sub in
  do groups <- load_groups k f log3;
  let log4 := log3 ++ groups in
  do c <- extract_cosmology log4;
  Ok (log4 ++ c).

(** 827-868: the type of a file, then its metadata. *)
Definition open_metadata (f : mfile) : res (file_kind * list (name * mval)) :=
  match dict_get (mf_groups f) (txt "Header") with
  | None => Err KeyError
  | Some g =>
      do k <- (match dict_get (gi_attrs g) (txt "OutputType") with
               | None => metadata_discriminator None
               | Some (HStr s) | Some (HBytes s) => metadata_discriminator (Some (string_of_list_ascii s))
               | Some _ => Err ValueError
               end);
      do m <- read_metadata k f;
      Ok (k, m)
  end.

End Meta.

(** * Attributes of lines of sight *)

(** 1423-1481: unit, frame and exponent by public name. *)
Definition los_positions : list name := [txt "xpos"; txt "ypos"; txt "zpos"].
Definition attribute_unit (n : name) : option dimension :=
  if in_names n los_positions then Some DLength else None.
Definition attribute_comoving (n : name) : bool := in_names n los_positions.
Definition attribute_exponent (n : name) : Q := if in_names n los_positions then one else zero.

(** What an attribute of a group object is: a field (its path) or an attribute of the group in the
    file.  reader.py:607-673: the fields are entered first, so that attributes replace fields. *)
Inductive member : Set := MField (path : name) | MAttribute (attr : name).

Definition members (g : group_meta) : list (name * member) :=
  combine (gm_names g) (map MField (gm_paths g))
  ++ map (fun na => (fst na, MAttribute (snd na))) (gm_attributes g).

(** The value of a group attribute, reader.py:250-289: numbers, whether it has no axes left after
    [squeeze], unit, frame, exponent of the scale factor. *)
Record attr_value : Set := mk_attr_value {
  av_numbers : list Q; av_scalar : bool; av_unit : option dimension; av_comoving : bool; av_exponent : Q
}.

Definition read_attribute (f : mfile) (group : name) (public attr : name) : res attr_value :=
  match dict_get (mf_groups f) group with
  | None => Err KeyError
  | Some g =>
      match dict_get (gi_attrs g) attr with
      | None => Err KeyError
      | Some (HArr l) => Ok (mk_attr_value l (length l =? 1) (attribute_unit public)
                               (attribute_comoving public) (attribute_exponent public))
      | Some (HNum x) => Ok (mk_attr_value [x] true (attribute_unit public)
                               (attribute_comoving public) (attribute_exponent public))
      | Some _ => Err TypeError
      end
  end.

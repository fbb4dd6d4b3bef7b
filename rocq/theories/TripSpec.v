(** Vocabulary for files of the writer that are read again. *)
From Coq Require Import String Ascii List Arith ZArith QArith Qreals Reals Bool.
From Verif Require Import Base NamesModel MetaModel MetaSpec CosmoModel CosmoSpec CtorModel WriterModel WriterSpec LabelModel.
Import ListNotations.

(** The entries of the header that the reader needs and that the writer writes, or that decide how the
    reader goes on.  An extra header leaves them alone: *)
Definition deciding : list string :=
  ["BoxSize"; "Dimension"; "Scale-factor"; "NumPart_ThisFile"; "MassTable"; "NumFilesPerSnapshot";
   "CanHaveTypes"; "OutputType"]%string.
Definition leaves_alone (extra : dict) : Prop := forall k, In k deciding -> missing extra k.

(** Its other entries can be read. *)
Definition can_be_read (extra : dict) : Prop :=
  if_there extra "Time" numeric0 /\ if_there extra "Redshift" indexable
  /\ if_there extra "InitialMassTable" tabular
  /\ if_there extra "SnapshotDate" is_text
  /\ (missing extra "SnapshotDate" -> if_there extra "Snapshot date" is_text).

(** The numbers of the file that labels are made of are stored exactly. *)
Definition exact_labels (num : R -> Q) (f : file) : Prop :=
  Q2R (num (f_a f)) = f_a f
  /\ forall t g name d, In (t, g) (f_groups f) -> In (name, d) g -> Q2R (num (at_a (ds_attrs d))) = at_a (ds_attrs d).

(** The names of the datasets. *)
Inductive stored_as : string -> string -> Prop :=
| as_coordinates : stored_as "coordinates" "Coordinates"
| as_ids : stored_as "particle_ids" "ParticleIDs"
| as_velocities : stored_as "velocities" "Velocities"
| as_masses : stored_as "masses" "Masses"
| as_lengths : stored_as "smoothing_lengths" "SmoothingLengths"
| as_energy : stored_as "internal_energy" "InternalEnergy".

(** The path of a dataset of particles of type [t]. *)
Definition dataset_path (t : nat) (field : string) (p : name) : Prop :=
  exists g h, type_group t g /\ stored_as field h /\ p = (g ++ slash :: txt h)%list.

(** What an array that has been read stands for: physical values in cgs units. *)
Definition meaning (x : made) : list R :=
  map (fun v => (v * fst (u_unit (m_array x)))%R) (phys (u_arr (m_array x))).

(** A file that writer [w] writes after a history. *)
Definition written_by (fz : bool) (l : list op) (w : writer) (f : file) : Prop :=
  Forall op_shaped l
  /\ exists i st', nth_error (writers (wrun fz init l)) i = Some w /\ write fz (wrun fz init l) i = (st', Written f).

(** What the writer puts in the header and among the units. *)
Inductive header_entry (num : R -> Q) (w : writer) (f : file) : string -> hval -> Prop :=
| entry_box : header_entry num w f "BoxSize" (HArr (map num (w_box w)))
| entry_total : header_entry num w f "NumPart_Total" (HArr (map inject_Z (f_counts f)))
| entry_high : header_entry num w f "NumPart_Total_HighWord" (HArr [0; 0; 0; 0; 0; 0]%Q)
| entry_entropy : header_entry num w f "Flag_Entropy_ICs" (HNum 0%Q)
| entry_dimension : header_entry num w f "Dimension" (HArr [inject_Z (zlen (w_box w))])
| entry_scale : header_entry num w f "Scale-factor" (HArr [num (w_a w)])
| entry_files : header_entry num w f "NumFilesPerSnapshot" (HNum 1%Q)
| entry_counts : header_entry num w f "NumPart_ThisFile" (HArr (map inject_Z (f_counts f)))
| entry_masses : header_entry num w f "MassTable" (HArr (map num (f_masses f))).

Inductive unit_entry (num : R -> Q) (s : usys) : string -> hval -> Prop :=
| unit_mass : unit_entry num s "Unit mass in cgs (U_M)" (HArr [num (uM s)])
| unit_length : unit_entry num s "Unit length in cgs (U_L)" (HArr [num (uL s)])
| unit_time : unit_entry num s "Unit time in cgs (U_t)" (HArr [num (ut s)])
| unit_current : unit_entry num s "Unit current in cgs (U_I)" (HArr [1%Q])
| unit_temperature : unit_entry num s "Unit temperature in cgs (U_T)" (HArr [num (uT s)]).

(** The attributes of a dataset with the numbers of [x], whose label is the scale factor [a] to the power
    [e]; [written] is the power that is written. *)
Inductive attribute_entry (num : R -> Q) (x : warr) (a e written : R) : string -> aval -> Prop :=
| entry_cgs : attribute_entry num x a e written
    "Conversion factor to CGS (not including cosmological corrections)" (ANums [num (wunit x)])
| entry_physical : attribute_entry num x a e written
    "Conversion factor to physical CGS (including cosmological corrections)" (ANums [num (wunit x * Rpower a e)%R])
| entry_I : attribute_entry num x a e written "U_I exponent" (ANums [dI (wdims x)])
| entry_L : attribute_entry num x a e written "U_L exponent" (ANums [dL (wdims x)])
| entry_M : attribute_entry num x a e written "U_M exponent" (ANums [dM (wdims x)])
| entry_T : attribute_entry num x a e written "U_T exponent" (ANums [dT (wdims x)])
| entry_t : attribute_entry num x a e written "U_t exponent" (ANums [dt (wdims x)])
| entry_a : attribute_entry num x a e written "a-scale exponent" (ANums [num written])
| entry_h : attribute_entry num x a e written "h-scale exponent" (ANums [0%Q]).

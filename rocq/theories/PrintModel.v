(** Texts, lengths and comparisons of the objects a user prints.  Definitions only. *)
From Coq Require Import String List ZArith Bool Decimal DecimalString Ascii.
From Verif Require Import Base.
Import ListNotations.
Open Scope string_scope.

(** [", ".join(l)]. *)
Fixpoint join (sep : string) (l : list string) : string :=
  match l with [] => "" | [x] => x | x :: t => x ++ sep ++ join sep t end.
(** [str] of a length. *)
Definition dec (n : nat) : string := NilZero.string_of_uint (Nat.to_uint n).

(** [np.array2string] of a cosmo array, _array_functions.py 1284-1293; [s] is unyt's text. *)
Definition array2string (s : string) (cm : option bool) : string :=
  s ++ match cm with Some true => " (comoving)" | Some false => " (physical)" | None => "" end.
(** objects.py 1301-1317, [str] of a cosmo array. *)
Definition array_str (s : string) (cm : option bool) : string :=
  s ++ " " ++ match cm with Some true => "(Comoving)" | None => "(Physical/comoving not set)" | Some false => "(Physical)" end.

(** reader.py 393-403: [str] of the datasets of one group; 738-741: of a whole file. *)
Definition group_text (filename : string) (fields : list string) : string :=
  "SWIFT dataset at " ++ filename ++ ". " ++ String "010"%char "Available fields: " ++ join ", " fields.
Definition file_text (filename : string) (groups : list string) : string :=
  "SWIFT dataset at " ++ filename ++ ". " ++ String "010"%char "Available groups: " ++ join ", " groups.
(** statistics.py 113-125. *)
Definition statistics_text (filename : string) (names : list string) : string :=
  "Statistics file: " ++ filename ++ ", containing fields: " ++ join ", " names.
(** metadata/objects.py 640-649, and 487-499 with the names of the particle types in [types]. *)
Definition group_metadata_text (group name : string) : string := "Metadata class for " ++ group ++ " (" ++ name ++ ")".
Definition mass_table_text (types : list string) : string := "Mass table for " ++ join " " types.
(** metadata/objects.py 560-573; [data] is a table of rows. *)
Definition mapping_text {A : Type} (x y : string) (data : list (list A)) : res string :=
  match data with
  | [] => Err IndexError
  | row :: _ => Ok ("Mapping table from " ++ x ++ " to " ++ y ++ ", containing " ++ dec (length data) ++ " by " ++ dec (length row) ++ " elements.")
  end.

(** A field with named columns, reader.py 420-540: [str] with Python's text of the list in [shown], [len], [==]. *)
Record columns := mkcolumns { c_path : string; c_names : list string; c_name : string }.
Definition columns_text (shown : string) (c : columns) : string :=
  "Named columns instance with " ++ shown ++ " available for " ++ String """"%char (c_name c) ++ String """"%char "".
Definition columns_len (c : columns) : nat := length (c_names c).
Fixpoint names_eqb (l m : list string) : bool :=
  match l, m with [], [] => true | x :: t, y :: u => String.eqb x y && names_eqb t u | _, _ => false end.
Definition columns_eq (c d : columns) : bool := names_eqb (c_names c) (c_names d) && String.eqb (c_name c) (c_name d).

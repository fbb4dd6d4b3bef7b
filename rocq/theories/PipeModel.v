(** From the fields of a file, through a mask, to the groups that pictures are made of.  Definitions only. *)
From Coq Require Import String List ZArith Reals Bool.
From Verif Require Import Base RangesModel MaskModel ReaderModel GetModel.
Import ListNotations.

(** One field of a particle type: the name of its attribute, its comoving flag, and the dataset. *)
Record stored := mkstored { st_name : string; st_comoving : option bool; st_field : field R }.

(** The array of an attribute.  Rows that were not filled are uninitialised memory. *)
Definition filled (row : option (list R)) : res (list R) :=
  match row with Some r => Ok r | None => Err UndefinedRead end.
Definition attribute_of (argsort : list Z -> list nat) (mask : option (list range * Z)) (s : stored) : res obj :=
  do out <- read_field argsort mask None (st_field s);
  do rows <- all_ok (map filled out);
  Ok (OArray (st_comoving s) rows).

(** reader.py lines 104-187, 590-640: the group of a particle type of a dataset loaded with a mask, or without.
    Each attribute reads its field. *)
Definition load_group (argsort : list Z -> list nat) (mask : option mask_state) (key : nat) (fs : list stored) : obj :=
  OGroup (map (fun s => (st_name s, attribute_of argsort (group_mask mask key) s)) fs).

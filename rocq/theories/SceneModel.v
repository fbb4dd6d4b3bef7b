(** From a file, through a subset of it that is written and opened again, to the groups that pictures are made of.
    Definitions only. *)
From Coq Require Import String List Reals Bool.
From Verif Require Import Base RangesModel ReaderModel SubsetModel PipeModel.
Import ListNotations.

(** reader.py lines 590-640: the fields of a group under the names of their attributes and with the comoving flags made of
    their attributes (C106).  Subset files have the same names and attributes (C73, C110), so [names] is that of the
    original file for both. *)
Definition attributes (names : list (string * option bool)) (g : group R) : list stored :=
  map (fun x => mkstored (fst (fst x)) (snd (fst x)) (snd x)) (combine names (g_fields g)).

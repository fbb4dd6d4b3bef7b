(** Model of the start of making a mask, masks.py 117-128 and 307: the checks of the metadata and the group Cells. *)
From Coq Require Import String List.
From Verif Require Import Base NamesModel SubsetModel MetaModel InfoModel.
From Verif Require MaskNamesModel.
Import ListNotations.

(** [if array:] of numpy. *)
Definition true_array (l : list bool) : res bool :=
  match l with [] => Ok false | [b] => Ok b | _ => Err ValueError end.

(** metadata/objects.py 424-433 and 1322-1334: only snapshots count their files. *)
Definition incomplete (k : file_kind) (log : list (name * mval)) : res bool :=
  match k with
  | KSnapshot => do l <- partial_snapshot log; true_array l
  | _ => Ok false
  end.

Definition cells_of (k : file_kind) (log : list (name * mval)) (f : mfile) : res ginfo :=
  if MaskNamesModel.masking_valid k
  then do b <- incomplete k log;
       if b then Err InvalidSnapshot
       else match dict_get (mf_groups f) (txt "Cells") with Some g => Ok g | None => Err KeyError end
  else Err NotImplementedErr.

(** Vocabulary for pictures of subset files. *)
From Coq Require Import String List ZArith Reals Bool.
From Verif Require Import Base RangesModel RangesSpec MaskModel MaskSpec ReaderModel SubsetModel SubsetSpec SubsetProofs.
Import ListNotations.

(** [f'] is the subset file of [f] written with the mask [st], which keeps something of every type, so that masks can be
    made for [f']; [gr] and [gr'] are the groups number [g] of both. *)
Definition subset_of (argsort : list Z -> list nat) (f f' : sfile R) (st : mask_state) (g : nat) (gr gr' : group R) : Prop :=
  is_argsort argsort /\ wf_file f /\ file_tiled f /\ mask_of f st /\ type_ok (f_type f)
  /\ (exists allow, write_subset argsort f st allow = Ok f')
  /\ (forall g gr, nth_error (f_groups f) g = Some gr -> g_fields gr <> [] -> exists i, selected st (key_of f g) i)
  /\ nth_error (f_groups f) g = Some gr /\ nth_error (f_groups f') g = Some gr' /\ present gr' = true.

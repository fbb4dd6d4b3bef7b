(** Specification vocabulary for subset files. *)
From Coq Require Import String List ZArith QArith Bool.
From Verif Require Import Base RangesModel RangesSpec MaskModel MaskSpec ReaderModel ReaderSpec SubsetModel.
Import ListNotations.
Open Scope Z_scope.

(** The mask key of group number [g]: its position among the groups present in the file. *)
Definition key_of {V} (f : sfile V) (g : nat) : nat :=
  length (filter present (firstn g (f_groups f))).

(** A file as SWIFT writes it: one table row per cell, cells inside the file, one row per
    particle in every field, no datasets for types that are absent, and no dataset without
    rows. *)
Definition wf_file {V} (f : sfile V) : Prop :=
  wf_raw (raw_of_file f) /\ f_centres f <> [] /\
  (f_shared f = true -> exists gr, f_groups f = [gr] /\ g_has gr = Some true) /\
  Forall (fun g =>
    (present g = false -> g_count g = 0 /\ g_fields g = []) /\
    Forall (fun fd => field_of (g_count g) fd /\ fd_rows fd <> [] /\ fd_layout fd <> Remote)
           (g_fields g)) (f_groups f).

(** In the order in which the mask looks at them, the cells of every present type follow one
    another in the file. *)
Definition file_tiled {V} (f : sfile V) : Prop :=
  Forall (fun mk => cells_tile 0 (key_cells mk) (key_total mk)) (mm_keys (mask_meta_of f)).

(** A mask made for the file. *)
Definition mask_of {V} (f : sfile V) (st : mask_state) : Prop := reachable (mask_meta_of f) st.

(** The rows of the file listed in [idx]. *)
Definition picks {V} (idx : list Z) (rows : list (list V)) (out : list (list V)) : Prop :=
  Forall2 (fun i o => 0 <= i /\ nth_error rows (Z.to_nat i) = Some o) idx out.

(** [f'] is [f] with the rows [idx]. *)
Definition field_subset {V} (idx : list Z) (f f' : field V) : Prop :=
  picks idx (fd_rows f) (fd_rows f') /\ fd_2d f' = fd_2d f /\ fd_width f' = fd_width f.

(** Subset types. *)
Definition is_subset_type (t : string) : Prop :=
  t = "VolumeSubset"%string \/ t = "SOAPSubset"%string \/ t = "FOFSubset"%string.

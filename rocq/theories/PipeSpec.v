(** Vocabulary for pictures of datasets loaded with a mask. *)
From Coq Require Import String List ZArith QArith Qreals Reals Bool.
From Verif Require Import Base VisModel RotModel RangesModel MaskModel MaskSpec ReaderModel ReaderSpec GetSpec PipeModel.
Import ListNotations.
Open Scope R_scope.

(** The fields have one of the name (the first of it counts), on this machine, with these rows. *)
Definition stores (fs : list stored) (name : string) (comoving : option bool) (rows : list (list R)) : Prop :=
  exists before f after, fs = (before ++ mkstored name comoving f :: after)%list /\ ~ In name (map st_name before)
    /\ fd_layout f <> Remote /\ field_of (zlen rows) f /\ fd_rows f = rows.

(** The weights of the particles: a field, or ones. *)
Definition weighs (fs : list stored) (project : option string) (frame : option bool) (ps : list part) : Prop :=
  match project with
  | Some name => dotless name /\ stores fs name frame (map (fun p => [p_m p]) ps)
  | None => exists ids, stores fs "particle_ids" frame ids /\ Forall2 (fun p id => p_m p = 1 /\ exists v, id = [v]) ps ids
  end.

(** The file of these particles. *)
Definition file_of (fs : list stored) (project : option string) (frame : option bool) (coords : bool) (ps : list part) : Prop :=
  weighs fs project frame ps
  /\ stores fs "coordinates" (Some coords) (map (fun p => [p_x p; p_y p; p_z p]) ps).

(** The mask, brought into its state by the user, keeps each particle that is needed, once. *)
Definition keeps (st : mask_state) (k : nat) (needed : part -> Prop) (ps : list part) : Prop :=
  NoDup (masked_rows (ms_masks st) k)
  /\ forall i p, nth_error ps i = Some p -> needed p -> selected st k (Z.of_nat i).

(** The interval widened by [w] is inside the bounds. *)
Definition widened (lo hi w : R) (bounds : option (list Q)) : Prop :=
  match bounds with
  | None => True
  | Some [b; c] => Q2R b < lo - w /\ hi + w < Q2R c
  | Some _ => False
  end.

(** Particle [i] is stored in a cell whose box holds its position. *)
Definition in_its_cell (box : MaskModel.vec) (mk : mask_key) (i : Z) (p : part) : Prop :=
  exists c pos, In c (key_cells mk) /\ stored_in c i /\ extent_ok box c /\ in_cell_extent box c pos
    /\ p_x p = Q2R (pos AX) /\ p_y p = Q2R (pos AY) /\ p_z p = Q2R (pos AZ).
Definition real_box (box : MaskModel.vec) : RotModel.vec := (Q2R (box AX), Q2R (box AY), Q2R (box AZ)).

(** Model of field access: swiftsimio/reader.py.  Definitions only. *)
From Coq Require Import List ZArith Bool.
From Verif Require Import Base RangesModel MaskModel.
Import ListNotations.
Open Scope Z_scope.

(** An HDF5 dataset with one row per particle.  [fd_2d]: two axes, then [fd_width] is the
    length of the second one.  More axes: ShapeModel.v. *)
Record field (V : Type) : Type := mk_field {
  fd_layout : layout;
  fd_2d : bool;
  fd_width : Z;
  fd_rows : list (list V)
}.
Arguments mk_field {V}.
Arguments fd_layout {V}.
Arguments fd_2d {V}.
Arguments fd_width {V}.
Arguments fd_rows {V}.

(** reader.py:101-102: [columns] is [np.s_[:]] or [np.s_[column_index]]; it is only applied to
    datasets with two axes (reader.py:165-171, accelerated.py:150-158). *)
Definition select_column {V} (f : field V) (column : option nat) (row : list V) : list V :=
  match column with
  | Some j => if fd_2d f then firstn 1 (skipn j row) else row
  | None => row
  end.

(** reader.py:134-184: read one field.  [mask] is the range array and the size attribute of
    the mask for the particle type, or [None] without a mask.  Units and cosmology are not
    part of this model. *)
Definition read_field {V} (argsort : list Z -> list nat) (mask : option (list range * Z))
           (column : option nat) (f : field V) : res (list (option (list V))) :=
  let bad := match column with Some j => fd_2d f && (fd_width f <=? Z.of_nat j) | None => false end in
  if bad then Err IndexError
  else match mask with
       | Some (ranges, size) =>
           read_ranges argsort (fd_layout f) (select_column f column) (fd_rows f) ranges size
       | None => Ok (map (fun r => Some (select_column f column r)) (fd_rows f))
       end.

(** reader.py:609-612: the mask of a particle type; a mask object is converted to range form
    when the dataset is created (reader.py:732-734).  [key] is the key of the mask attribute
    the type's name refers to. *)
Definition group_mask (mask : option mask_state) (key : nat) : option (list range * Z) :=
  match mask with
  | None => None
  | Some st =>
      match convert_masks_to_ranges (ms_masks st) with
      | InRanges l => nth_error l key
      | InBools _ => None
      end
  end.

(** * Lazy access

    A slot is one attribute of the dataset object: a field or one named column of it. *)
Definition slot := (nat * option nat)%type.

Definition slot_eqb (a b : slot) : bool :=
  Nat.eqb (fst a) (fst b) &&
  match snd a, snd b with
  | None, None => true
  | Some i, Some j => Nat.eqb i j
  | _, _ => false
  end.

(** What reading a slot from the file gives: [Ok None] is the KeyError branch (182-184),
    which prints a message and returns None. *)
Definition slot_reader (A : Type) := slot -> res (option A).

(** The private attributes [_name] and, for the statements, the slots read so far. *)
Record ds_state (A : Type) : Type := mk_ds_state {
  ds_cache : slot -> option A;
  ds_reads : list slot
}.
Arguments mk_ds_state {A}.
Arguments ds_cache {A}.
Arguments ds_reads {A}.

(** reader.py:369-392: all attributes start as None. *)
Definition ds_init {A} : ds_state A := mk_ds_state (fun _ => None) [].

Definition ds_put {A} (st : ds_state A) (s : slot) (v : option A) : slot -> option A :=
  fun t => if slot_eqb s t then v else ds_cache st t.

(** reader.py:104-187 [getter]. *)
Definition ds_get {A} (read : slot_reader A) (st : ds_state A) (s : slot)
  : ds_state A * res (option A) :=
  match ds_cache st s with
  | Some v => (st, Ok (Some v))
  | None =>
      let log := s :: ds_reads st in
      match read s with
      | Ok (Some v) => (mk_ds_state (ds_put st s (Some v)) log, Ok (Some v))
      | Ok None => (mk_ds_state (ds_cache st) log, Ok None)
      | Err e => (mk_ds_state (ds_cache st) log, Err e)
      end
  end.

(** User operations: attribute access, assignment, [del], and in-place modification of the
    array that an access returns (the object in the cache). *)
Inductive ds_op (A : Type) : Type :=
| DGet (s : slot)
| DSet (s : slot) (v : option A)
| DDel (s : slot)
| DInPlace (s : slot) (f : A -> A).
Arguments DGet {A}.
Arguments DSet {A}.
Arguments DDel {A}.
Arguments DInPlace {A}.

(** reader.py:208-222 [setter], 306-319 [deleter]. *)
Definition ds_step {A} (read : slot_reader A) (st : ds_state A) (op : ds_op A)
  : ds_state A * res (option A) :=
  match op with
  | DGet s => ds_get read st s
  | DSet s v => (mk_ds_state (ds_put st s v) (ds_reads st), Ok None)
  | DDel s => (mk_ds_state (ds_put st s None) (ds_reads st), Ok None)
  | DInPlace s f =>
      match ds_get read st s with
      | (st', Ok (Some v)) => (mk_ds_state (ds_put st' s (Some (f v))) (ds_reads st'), Ok None)
      | (st', Ok None) => (st', Err TypeError)
      | (st', Err e) => (st', Err e)
      end
  end.

Fixpoint ds_run {A} (read : slot_reader A) (ops : list (ds_op A)) (st : ds_state A)
  : ds_state A * list (res (option A)) :=
  match ops with
  | [] => (st, [])
  | op :: rest =>
      let '(st', out) := ds_step read st op in
      let '(st'', outs) := ds_run read rest st' in
      (st'', out :: outs)
  end.

(** The reader of a group of a snapshot file: [fields] in the order of the field paths. *)
Definition group_reader {V} (argsort : list Z -> list nat) (mask : option (list range * Z))
           (fields : list (field V)) : slot_reader (list (option (list V))) :=
  fun s => match nth_error fields (fst s) with
           | None => Ok None
           | Some f => match read_field argsort mask (snd s) f with
                       | Ok out => Ok (Some out)
                       | Err e => Err e
                       end
           end.

(** Model of swiftsimio/subset_writer.py and of the file-type tables it must agree with.
    Definitions only. *)
From Coq Require Import String List ZArith QArith Bool.
From Verif Require Import Base RangesModel SortModel MaskModel ReaderModel.
Import ListNotations.
Open Scope Z_scope.

(** * Output types *)

(** subset_writer.py:287-295, the dictionary of [_write_metadata]; any other type is a
    KeyError. *)
Definition subset_output_type (t : string) : res string :=
  if (t =? "FullVolume")%string then Ok "VolumeSubset"%string
  else if (t =? "SOAP")%string then Ok "SOAPSubset"%string
  else if (t =? "FOF")%string then Ok "FOFSubset"%string
  else if (t =? "VolumeSubset")%string then Ok "VolumeSubset"%string
  else if (t =? "SOAPSubset")%string then Ok "SOAPSubset"%string
  else if (t =? "FOFSubset")%string then Ok "FOFSubset"%string
  else Err KeyError.

(** The metadata classes. *)
Inductive file_kind : Set := KSnapshot | KLineOfSight | KSOAP | KFOF.

(** metadata/objects.py:827-868 [_metadata_discriminator]; [None]: no OutputType attribute.
    Attributes are text here (the code decodes bytes). *)
Definition metadata_discriminator (attr : option string) : res file_kind :=
  let t := match attr with Some t => t | None => "FullVolume"%string end in
  if (t =? "FullVolume")%string || (t =? "VolumeSubset")%string then Ok KSnapshot
  else if (t =? "LineOfSight")%string then Ok KLineOfSight
  else if (t =? "SOAP")%string || (t =? "SOAPSubset")%string then Ok KSOAP
  else if (t =? "FOF")%string || (t =? "FOFSubset")%string then Ok KFOF
  else Err ValueError.

(** subset_writer.py:283-295: the attribute is rewritten only when the header has it. *)
Definition write_output_type (attr : option string) : res (option string) :=
  match attr with
  | None => Ok None
  | Some t => match subset_output_type t with Ok t' => Ok (Some t') | Err e => Err e end
  end.

(** * Files

    One particle type of a snapshot, or all halo groups of a SOAP catalogue together (they
    share one cell table and one row count). *)
Record group (V : Type) : Type := mk_group {
  g_count : Z;                          (* NumPart_ThisFile / NumSubhalos_ThisFile *)
  g_has : option bool;                  (* HasType, newer files *)
  g_offsets : list Z;                   (* Cells/OffsetsInFile *)
  g_counts : list Z;                    (* Cells/Counts *)
  g_extent : option (list vec * list vec);  (* Cells/MinPositions, MaxPositions *)
  g_fields : list (field V)
}.
Arguments mk_group {V}.
Arguments g_count {V}.
Arguments g_has {V}.
Arguments g_offsets {V}.
Arguments g_counts {V}.
Arguments g_extent {V}.
Arguments g_fields {V}.

Record sfile (V : Type) : Type := mk_sfile {
  f_type : option string;     (* Header/OutputType *)
  f_centres : list vec;
  f_size : vec;
  f_pad : Q;                  (* padding used when the mask is made; a parameter of the mask *)
  f_box : vec;
  f_shared : bool;            (* SOAP: shared cell counts and homogeneous arrays *)
  f_groups : list (group V)
}.
Arguments mk_sfile {V}.
Arguments f_type {V}.
Arguments f_centres {V}.
Arguments f_size {V}.
Arguments f_pad {V}.
Arguments f_box {V}.
Arguments f_shared {V}.
Arguments f_groups {V}.

(** metadata/objects.py:992-1002 [present_groups]. *)
Definition present {V} (g : group V) : bool :=
  match g_has g with
  | Some b => b
  | None => negb (g_count g =? 0)
  end.

(** What the mask of the file is built from (masks.py:294-440). *)
Definition raw_of_group {V} (g : group V) : raw_key :=
  mk_raw_key (g_offsets g) (g_counts g) (g_extent g) (g_count g).

Definition raw_of_file {V} (f : sfile V) : raw_cells :=
  mk_raw_cells (f_centres f) (f_size f) (f_pad f) (f_box f) (f_shared f)
    (map raw_of_group (filter present (f_groups f))).

Definition mask_meta_of {V} (f : sfile V) : mask_meta := unpack_cell_metadata (raw_of_file f).

(** masks.py:396: [mask.cell_sort]. *)
Definition cell_sort_of {V} (f : sfile V) : list nat :=
  match rc_keys (raw_of_file f) with
  | [] => []
  | rk :: _ => stable_argsort (rk_offsets rk)
  end.

(** * Writing *)

Fixpoint all_some {A} (l : list (option A)) : option (list A) :=
  match l with
  | [] => Some []
  | None :: _ => None
  | Some a :: t => option_map (cons a) (all_some t)
  end.

(** subset_writer.py:346-373, one dataset.  [infile[name][0]] fails on a dataset without
    rows.  [UndefinedRead] would be uninitialised memory written to the file.  h5py stores
    the array contiguously.  Datasets of shape (n, 1) or with more than two axes:
    ShapeModel.v. *)
Definition write_field {V} (argsort : list Z -> list nat) (mask : option (list range * Z))
           (f : field V) : res (field V) :=
  match fd_rows f with
  | [] => Err IndexError
  | _ =>
      match mask with
      | None => Err RuntimeError
      | Some (ranges, size) =>
          do out <- read_ranges argsort (fd_layout f) (fun r => r) (fd_rows f) ranges size;
          match all_some out with
          | Some rows => Ok (mk_field Contiguous (fd_2d f) (fd_width f) rows)
          | None => Err UndefinedRead
          end
      end
  end.

(** One group, given the mask key it belongs to (none when it is not present):
    subset_writer.py:217-234 (cell tables), 243-247 (extents reordered with cell_sort),
    296-313 (header counts), 344-373 (datasets). *)
Definition write_group {V} (argsort : list Z -> list nat) (cell_sort : list nat)
           (mask : option (mask_key * (list range * Z))) (g : group V) : res (group V) :=
  let count := if g_count g =? 0 then Ok 0
               else match mask with
                    | Some (_, (_, size)) => Ok size
                    | None => Err TypeError   (* None in an integer attribute *)
                    end in
  let extent := match g_extent g with
                | Some (mn, mx) => Some (take_order mn cell_sort, take_order mx cell_sort)
                | None => None
                end in
  do cells <- (match mask with
               | Some (mk, (ranges, _)) => masked_counts_offsets (key_cells mk) (inl ranges)
               | None => Ok ([], [])
               end);
  do n <- count;
  do fields <- all_ok (map (write_field argsort (option_map snd mask)) (g_fields g));
  Ok (mk_group n (g_has g) (snd cells) (fst cells) extent fields).

(** Attach to every group its entry of the mask: the i-th present group has key i. *)
Fixpoint assign_keys {V A} (gs : list (group V)) (keys : list A) : list (option A * group V) :=
  match gs with
  | [] => []
  | g :: rest =>
      if present g then
        match keys with
        | k :: keys' => (Some k, g) :: assign_keys rest keys'
        | [] => (None, g) :: assign_keys rest []
        end
      else (None, g) :: assign_keys rest keys
  end.

(** subset_writer.py:398-436 [write_subset].  The mask object was made for this file; it is
    left in range form. *)
Definition write_subset {V} (argsort : list Z -> list nat) (f : sfile V) (st : mask_state)
           (allow_unconstrained : bool) : res (sfile V) :=
  match ms_constrained st, allow_unconstrained with
  | None, false => Err ValueError
  | _, _ =>
      match convert_masks_to_ranges (ms_masks st) with
      | InBools _ => Err RuntimeError      (* unreachable *)
      | InRanges ranges =>
          do t <- write_output_type (f_type f);
          do groups <- all_ok (map (fun mg => write_group argsort (cell_sort_of f) (fst mg) (snd mg))
                                   (assign_keys (f_groups f)
                                                (combine (mm_keys (mask_meta_of f)) ranges)));
          Ok (mk_sfile t (take_order (f_centres f) (cell_sort_of f)) (f_size f) (f_pad f) (f_box f)
                       (f_shared f) groups)
      end
  end.

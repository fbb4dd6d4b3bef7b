(** Model of masked and unmasked reads of datasets with any number of axes: swiftsimio/reader.py:134-184,
    swiftsimio/accelerated.py:104-170 and 344-426, swiftsimio/subset_writer.py:346-373.  Definitions only. *)
From Coq Require Import List ZArith Bool.
From Verif Require Import Base RangesModel.
Import ListNotations.
Open Scope Z_scope.

(** An HDF5 dataset: the lengths of the axes after the first, the length of a chunk along the first axis
    ([handle.chunks[0]], [None] if it is not chunked), and for every index of the first axis the elements behind it
    in the order of C.  Remote datasets are not modelled. *)
Record ndset (V : Type) : Type := mk_ndset {
  nd_tail : list Z;
  nd_chunk : option Z;
  nd_rows : list (list V)
}.
Arguments mk_ndset {V}.
Arguments nd_tail {V}.
Arguments nd_chunk {V}.
Arguments nd_rows {V}.

Definition prodZ (l : list Z) : Z := fold_right Z.mul 1 l.

(** reader.py:105-106: the selection [np.s_[rows, columns]] of one row ([columns] is [:] or an index of the second
    axis; with one axis it is not used): its elements, and the lengths of the axes that are left. *)
Definition slab {V} (tail : list Z) (column : option nat) (row : list V) : list V :=
  match column, tail with
  | Some j, _ :: rest => firstn (Z.to_nat (prodZ rest)) (skipn (j * Z.to_nat (prodZ rest)) row)
  | _, _ => row
  end.

Definition slab_axes (tail : list Z) (column : option nat) : list Z :=
  match column, tail with
  | Some _, _ :: rest => rest
  | _, _ => tail
  end.

(** h5py refuses an index behind the end of an axis. *)
Definition no_column (tail : list Z) (column : option nat) : bool :=
  match column, tail with
  | Some j, d :: _ => d <=? Z.of_nat j
  | _, _ => false
  end.

(** h5py (external): [SimpleSelection.expand_shape], on reversed lists of lengths.  Every axis of the selection,
    from the last, is matched with one of the source; what is left of the source may not be longer than one. *)
Fixpoint expand_rev (count source : list Z) : res (list Z) :=
  match count with
  | [] => if existsb (fun t => 1 <? t) source then Err TypeError else Ok []
  | c :: count' =>
      match source with
      | [] => do rest <- expand_rev count' []; Ok (1 :: rest)
      | t :: source' =>
          if (t =? 1) || (c =? t) then do rest <- expand_rev count' source'; Ok (t :: rest)
          else Err TypeError
      end
  end.

Definition expand_shape (count source : list Z) : res (list Z) :=
  do t <- expand_rev (rev count) (rev source); Ok (rev t).

(** h5py (external): [Dataset.read_direct(output, source_sel, dest_sel)] with [SimpleSelection.broadcast]: the
    destination is divided into blocks of the expanded shape, each of which is filled with the source.  [dest_axes] are
    the lengths of the axes of [output] after the first; there is at most one.  HDF5 refuses blocks of another size
    than the source. *)
Definition read_direct_nd {V} (tail : list Z) (column : option nat) (data : list (list V)) (source : range)
           (dest_axes : list Z) (output : list (list (option V))) (dest : range) : res (list (list (option V))) :=
  if no_column tail column then Err IndexError
  else
    let '(s, n) := py_slice (zlen data) source in
    let '(d, m) := py_slice (zlen output) dest in
    let elements := concat (map (slab tail column) (firstn (Z.to_nat n) (skipn (Z.to_nat s) data))) in
    let source_axes := n :: slab_axes tail column in
    do block <- expand_shape (m :: dest_axes) source_axes;
    if existsb (fun t => t =? 0) block then Err ZeroDivision
    else if existsb (fun c => c =? 0) (m :: dest_axes) then Ok output
    else if negb (prodZ block =? prodZ source_axes) then Err OSErr
    else
      let t0 := nth 0 block 1 in
      let t1 := nth 1 block 1 in
      let value i j := nth_error elements (Z.to_nat ((i mod t0) * t1 + j mod t1)) in
      Ok (splice (Z.to_nat d) (map (fun i => map (value i) (zrange 0 (prodZ dest_axes))) (zrange 0 m)) output).

(** [np.empty((n, *axes))]. *)
Definition np_empty_nd {V} (n : Z) (axes : list Z) : res (list (list (option V))) :=
  if n <? 0 then Err ValueError else Ok (repeat (repeat None (Z.to_nat (prodZ axes))) (Z.to_nat n)).

(** accelerated.py:146-165 and 398-418. *)
Fixpoint read_loop_nd {V} (tail : list Z) (column : option nat) (data : list (list V)) (ranges : list range)
         (dest_axes : list Z) (already_read : Z) (output : list (list (option V))) : res (list (list (option V))) :=
  match ranges with
  | [] => Ok output
  | (read_start, read_end) :: rest =>
      if read_end =? read_start then read_loop_nd tail column data rest dest_axes already_read output
      else
        let size_of_range := read_end - read_start in
        match read_direct_nd tail column data (read_start, read_end) dest_axes output
                             (already_read, size_of_range + already_read) with
        | Err e => Err e
        | Ok output' => read_loop_nd tail column data rest dest_axes (already_read + size_of_range) output'
        end
  end.

(** accelerated.py:484-539 [read_ranges_from_file], 104-170 and 344-426; the output has the shape
    [(size, *dest_axes)]. *)
Definition read_ranges_nd {V} (set : ndset V) (column : option nat) (ranges : list range) (size : Z) (dest_axes : list Z)
  : res (list (list (option V))) :=
  let total := sumZ (map (fun b => snd b - fst b) ranges) in
  let unchunked :=
    do output <- np_empty_nd size dest_axes;
    read_loop_nd (nd_tail set) column (nd_rows set) ranges dest_axes 0 output in
  match nd_chunk set with
  | None => unchunked
  | Some c =>
      if (0 <? zlen ranges) && (total <? 500000 * zlen ranges) then
        let chunk_ranges := get_chunk_ranges ranges c (zlen (nd_rows set)) in
        do output <- np_empty_nd (sumZ (map (fun b => snd b - fst b) chunk_ranges)) dest_axes;
        do output <- read_loop_nd (nd_tail set) column (nd_rows set) chunk_ranges dest_axes 0 output;
        extract_ranges output chunk_ranges ranges
      else unchunked
  end.

(** reader.py:134-184: the elements of the field, row by row. *)
Definition read_nd {V} (mask : option (list range * Z)) (column : option nat) (set : ndset V)
  : res (list (list (option V))) :=
  match mask with
  | Some (ranges, size) =>
      let dest_axes := match nd_tail set, column with
                       | d :: _, None => [d]
                       | _, _ => []
                       end in
      read_ranges_nd set column ranges size dest_axes
  | None =>
      if no_column (nd_tail set) column then Err IndexError
      else Ok (map (fun row => map Some (slab (nd_tail set) column row)) (nd_rows set))
  end.

(** subset_writer.py:354-369: what is written for one dataset ([first_value.size] is the number of elements of one
    row). *)
Definition subset_nd {V} (mask : option (list range * Z)) (set : ndset V) : res (list (list (option V))) :=
  match nd_rows set with
  | [] => Err IndexError
  | _ =>
      let output_size := prodZ (nd_tail set) in
      let dest_axes := if output_size =? 1 then [] else [output_size] in
      match mask with
      | None => Err RuntimeError
      | Some (ranges, size) => read_ranges_nd set None ranges size dest_axes
      end
  end.

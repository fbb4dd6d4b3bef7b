(** Model of the range readers: swiftsimio/accelerated.py and
    swiftsimio/_ordered_slices.py.  Definitions only. *)
From Coq Require Import List ZArith Bool.
From Verif Require Import Base.
Import ListNotations.
Open Scope Z_scope.

(** A row range [[start, stop]] as in the (N, 2) integer arrays of accelerated.py. *)
Notation range := (Z * Z)%type.

(** accelerated.py:90-99, the loop of [ranges_from_array].  [output.append] in the
    loop is modelled by emitting the ranges in order. *)
Fixpoint ranges_loop (start stop : Z) (values : list Z) : list range :=
  match values with
  | [] => [(start, stop + 1)]
  | value :: rest =>
      if negb (value =? stop + 1)
      then (start, stop + 1) :: ranges_loop value value rest
      else ranges_loop start value rest
  end.

(** accelerated.py:52-101 [ranges_from_array]. *)
Definition ranges_from_array (array : list Z) : list range :=
  match array with
  | [] => [(0, 0)]
  | x :: rest => ranges_loop x x rest
  end.

(** accelerated.py:266-272, the loop of [expand_ranges]: writes [lower + j] at
    position [i + j].  A write outside the output array is undefined (numba). *)
Fixpoint expand_loop (ranges : list range) (i : Z) (output : list Z) : res (list Z) :=
  match ranges with
  | [] => Ok output
  | (lower, upper) :: rest =>
      let bound_length := upper - lower in
      let vals := zrange lower upper in
      if (i <? 0) || (zlen output <? i + zlen vals)
      then Err UndefinedRead
      else expand_loop rest (i + bound_length) (splice (Z.to_nat i) vals output)
  end.

(** accelerated.py:247-274 [expand_ranges]. *)
Definition expand_ranges (ranges : list range) : res (list Z) :=
  let length_ := sumZ (map (fun b => snd b - fst b) ranges) in
  if length_ <? 0 then Err ValueError
  else expand_loop ranges 0 (repeat 0 (Z.to_nat length_)).

(** Python's [slice(start, stop).indices(n)] with step 1: where the slice begins and how many elements it has.
    Negative bounds count from the end; bounds outside are clipped. *)
Definition py_slice (n : Z) (r : range) : Z * Z :=
  let bound x := if x <? 0 then Z.max 0 (x + n) else Z.min x n in
  (bound (fst r), Z.max 0 (bound (snd r) - bound (fst r))).

(** h5py (external): [Dataset.read_direct(output, source_sel, dest_sel)] for slices of rows, with the column
    selector applied to each row.  Both slices are those of Python, so that bounds outside are clipped.  A
    source of one row is broadcast over the destination; otherwise both have to have as many rows.  Of two empty
    selections h5py divides one by the other. *)
Definition read_direct {A B} (col : A -> B) (data : list A) (source : range) (output : list (option B)) (dest : range)
  : res (list (option B)) :=
  let '(s, n) := py_slice (zlen data) source in
  let '(d, m) := py_slice (zlen output) dest in
  let rows := map (fun x => Some (col x)) (firstn (Z.to_nat n) (skipn (Z.to_nat s) data)) in
  if n =? m then if n =? 0 then Err ZeroDivision else Ok (splice (Z.to_nat d) rows output)
  else if n =? 1 then Ok (splice (Z.to_nat d) (concat (repeat rows (Z.to_nat m))) output)
  else Err TypeError.

(** accelerated.py:146-165 (and 398-418): the read loop shared by the unchunked and
    the chunked reader.  [output] is a buffer from [np.empty]: [None] marks an
    element that has not been written. *)
Fixpoint read_loop {A B} (col : A -> B) (data : list A) (ranges : list range)
         (already_read : Z) (output : list (option B)) : res (list (option B)) :=
  match ranges with
  | [] => Ok output
  | (read_start, read_end) :: rest =>
      if read_end =? read_start then read_loop col data rest already_read output
      else
        let size_of_range := read_end - read_start in
        match read_direct col data (read_start, read_end) output (already_read, size_of_range + already_read) with
        | Err e => Err e
        | Ok output' => read_loop col data rest (already_read + size_of_range) output'
        end
  end.

(** [np.empty(n)]. *)
Definition np_empty {B} (n : Z) : res (list (option B)) :=
  if n <? 0 then Err ValueError else Ok (repeat None (Z.to_nat n)).

(** accelerated.py:104-170 [read_ranges_from_file_unchunked].  [output_shape] is the
    length of the first axis; byte order is not modelled. *)
Definition read_ranges_unchunked {A B} (col : A -> B) (data : list A)
           (ranges : list range) (output_shape : Z) : res (list (option B)) :=
  bind (np_empty output_shape) (fun output => read_loop col data ranges 0 output).

(** accelerated.py:226-242, one pass of the loop of [get_chunk_ranges].  The list
    [chunk_ranges] is kept in reverse (its head is [chunk_ranges[-1]]). *)
Definition chunk_step (chunk_size array_length : Z) (acc : list range) (bounds : range)
  : list range :=
  let lower := (fst bounds / chunk_size) * chunk_size in
  let upper := Z.min (- ((- snd bounds) / chunk_size) * chunk_size) array_length in
  match acc with
  | [] => [(lower, upper)]
  | (l0, u0) :: older =>
      if u0 <? lower then (lower, upper) :: acc
      else (l0, upper) :: older
  end.

(** accelerated.py:200-244 [get_chunk_ranges]. *)
Definition get_chunk_ranges (ranges : list range) (chunk_size array_length : Z)
  : list range :=
  rev (fold_left (chunk_step chunk_size array_length) ranges []).

(** accelerated.py:317-320. *)
Definition chunk_contains (chunk r : range) : bool :=
  (fst chunk <=? fst r) && (snd r <=? snd chunk).

(** accelerated.py:313-324: the chunk index of every range.  [chunk_index] only moves
    forward; ranges left over when the chunks run out keep the initial 0. *)
Fixpoint assign_chunks (chunks : list range) (chunk_index : nat)
  : list range -> list nat :=
  match chunks with
  | [] => fun ranges => map (fun _ => O) ranges
  | c :: cs =>
      fix inner (ranges : list range) : list nat :=
        match ranges with
        | [] => []
        | r :: rs =>
            if chunk_contains c r then chunk_index :: inner rs
            else assign_chunks cs (S chunk_index) (r :: rs)
        end
  end.

(** accelerated.py:329-339: range bounds relative to the array of chunk data. *)
Fixpoint adjust_ranges (chunks : list range) (idx : list nat) (ranges : list range)
         (running_sum : Z) : res (list range) :=
  match idx, ranges with
  | i :: idx', r :: ranges' =>
      match nth_error chunks i with
      | None => Err UndefinedRead
      | Some this_chunk =>
          let offset := fst this_chunk - running_sum in
          let adjusted := (fst r - offset, snd r - offset) in
          match idx' with
          | [] => Ok [adjusted]
          | j :: _ =>
              let running_sum' :=
                if Nat.ltb i j then running_sum + (snd this_chunk - fst this_chunk)
                else running_sum in
              match adjust_ranges chunks idx' ranges' running_sum' with
              | Ok rest => Ok (adjusted :: rest)
              | Err e => Err e
              end
          end
      end
  | _, _ => Err IndexError
  end.

(** numpy/numba integer-array indexing of one element: negative indices count from the
    end; anything else outside the array is an unchecked read. *)
Definition take_one {B} (array : list B) (i : Z) : res B :=
  let j := if i <? 0 then i + zlen array else i in
  if j <? 0 then Err UndefinedRead
  else match nth_error array (Z.to_nat j) with
       | Some x => Ok x
       | None => Err UndefinedRead
       end.

(** accelerated.py:277-341 [extract_ranges_from_chunks]. *)
Definition extract_ranges {B} (array : list B) (chunks ranges : list range)
  : res (list B) :=
  let idx := assign_chunks chunks 0 ranges in
  bind (adjust_ranges chunks idx ranges 0) (fun adjusted =>
  bind (expand_ranges adjusted) (fun indices =>
  all_ok (map (take_one array) indices))).

(** accelerated.py:344-426 [read_ranges_from_file_chunked]. *)
Definition read_ranges_chunked {A B} (col : A -> B) (data : list A) (chunk_size : Z)
           (ranges : list range) (output_shape : Z) : res (list (option B)) :=
  let chunk_ranges := get_chunk_ranges ranges chunk_size (zlen data) in
  let chunk_range_size := sumZ (map (fun b => snd b - fst b) chunk_ranges) in
  bind (np_empty chunk_range_size) (fun output =>
  bind (read_loop col data chunk_ranges 0 output) (fun output =>
  extract_ranges output chunk_ranges ranges)).

(** State of an [OrderedSlices] object (_ordered_slices.py:87-89). *)
Record ordered_slices := mk_ordered_slices {
  os_slices : list range;
  os_inverse_order : option (list nat);
  os_lengths : list Z
}.

(** [np.any(starts[1:] < stops[:-1])], _ordered_slices.py:39 and 49. *)
Fixpoint overlaps_next (ranges : list range) : bool :=
  match ranges with
  | r1 :: ((r2 :: _) as rest) => (fst r2 <? snd r1) || overlaps_next rest
  | _ => false
  end.

(** _ordered_slices.py:57-67: drop every start equal to the previous stop and every stop
    equal to the next start. *)
Fixpoint kept_starts (prev_stop : option Z) (ranges : list range) : list Z :=
  match ranges with
  | [] => []
  | (s, e) :: rest =>
      let keep := match prev_stop with None => true | Some p => negb (s =? p) end in
      if keep then s :: kept_starts (Some e) rest else kept_starts (Some e) rest
  end.

Fixpoint kept_stops (ranges : list range) : list Z :=
  match ranges with
  | [] => []
  | (s, e) :: rest =>
      let keep := match rest with [] => true | (s', _) :: _ => negb (e =? s') end in
      if keep then e :: kept_stops rest else kept_stops rest
  end.

(** _ordered_slices.py:82-83: [inverse_order[order] = arange(len(order))]. *)
Definition invert_order (order : list nat) : list nat :=
  fold_left (fun acc ko => upd (snd ko) (fst ko) acc)
            (combine (seq 0 (length order)) order) (repeat O (length order)).

(** [a[order]] for a permutation [order]. *)
Definition take_order {A} (l : list A) (order : list nat) : list A :=
  flat_map (fun i => match nth_error l i with Some x => [x] | None => [] end) order.

(** _ordered_slices.py:30-89 [OrderedSlices.__init__].  [argsort] stands for
    [np.argsort] (any sorting algorithm).  A mask array without rows has shape (0,),
    for which the first line raises IndexError. *)
Definition make_ordered_slices (argsort : list Z -> list nat) (ranges0 : list range)
  : res ordered_slices :=
  match ranges0 with
  | [] => Err IndexError
  | _ =>
    let ranges := filter (fun r => 0 <? snd r - fst r) ranges0 in
    let order := if overlaps_next ranges then Some (argsort (map fst ranges)) else None in
    let ordered := match order with
                   | Some o => take_order ranges o
                   | None => ranges
                   end in
    if overlaps_next ordered then Err RuntimeError
    else Ok {| os_slices := combine (kept_starts None ordered) (kept_stops ordered);
               os_inverse_order := option_map invert_order order;
               os_lengths := map (fun r => snd r - fst r) ordered |}
  end.

(** [np.split(arr, np.cumsum(lengths)[:-1])], _ordered_slices.py:107: consecutive pieces;
    the last piece takes the remainder. *)
Fixpoint split_lengths {A} (arr : list A) (lengths : list Z) : list (list A) :=
  match lengths with
  | [] => [arr]
  | [_] => [arr]
  | n :: rest => firstn (Z.to_nat n) arr :: split_lengths (skipn (Z.to_nat n) arr) rest
  end.

(** _ordered_slices.py:91-114 [reorder_result]. *)
Definition reorder_result {A} (os : ordered_slices) (arr : list A) : list A :=
  match os_inverse_order os with
  | None => arr
  | Some inv => concat (take_order (split_lengths arr (os_lengths os)) inv)
  end.

(** The remote server's [request_slices(slices, dest)] (external): it delivers the rows
    of the slices one after the other and fails if [dest] has another length.  Simplification: slices that are
    not inside the dataset are refused. *)
Definition h5_slice {A B} (col : A -> B) (data : list A) (r : range) : res (list B) :=
  let '(s, e) := r in
  if (0 <=? s) && (s <=? e) && (e <=? zlen data)
  then Ok (map col (firstn (Z.to_nat (e - s)) (skipn (Z.to_nat s) data)))
  else Err TypeError.

Definition request_slices {A B} (col : A -> B) (data : list A) (slices : list range)
           (dest : list (option B)) : res (list (option B)) :=
  bind (all_ok (map (h5_slice col data) slices)) (fun parts =>
  if zlen (concat parts) =? zlen dest then Ok (map Some (concat parts))
  else Err ValueError).

(** accelerated.py:429-481 [read_ranges_from_hdfstream]. *)
Definition read_ranges_remote {A B} (argsort : list Z -> list nat) (col : A -> B)
           (data : list A) (ranges : list range) (output_shape : Z)
  : res (list (option B)) :=
  bind (make_ordered_slices argsort ranges) (fun os =>
  bind (np_empty output_shape) (fun output =>
  bind (match os_slices os with
        | [] => Ok output
        | sl => request_slices col data sl output
        end) (fun output => Ok (reorder_result os output)))).

(** Storage of a dataset: what [handle.chunks] and [hasattr(handle, "request_slices")]
    tell the reader. *)
Inductive layout :=
| Contiguous
| Chunked (chunk_size : Z)
| Remote.

(** accelerated.py:484-539 [read_ranges_from_file].  The mean of an empty array is nan,
    which is not below the threshold. *)
Definition read_ranges {A B} (argsort : list Z -> list nat) (lay : layout) (col : A -> B)
           (data : list A) (ranges : list range) (output_shape : Z)
  : res (list (option B)) :=
  match lay with
  | Remote => read_ranges_remote argsort col data ranges output_shape
  | Contiguous => read_ranges_unchunked col data ranges output_shape
  | Chunked c =>
      let total := sumZ (map (fun b => snd b - fst b) ranges) in
      if (0 <? zlen ranges) && (total <? 500000 * zlen ranges)
      then read_ranges_chunked col data c ranges output_shape
      else read_ranges_unchunked col data ranges output_shape
  end.

(** accelerated.py:173-197 [index_dataset] ([handle[0]] fails on an empty dataset). *)
Definition index_dataset {A} (argsort : list Z -> list nat) (lay : layout)
           (data : list A) (mask_array : list Z) : res (list (option A)) :=
  match data with
  | [] => Err IndexError
  | _ => read_ranges argsort lay (fun x => x) data (ranges_from_array mask_array)
                     (zlen mask_array)
  end.

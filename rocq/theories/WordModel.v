(** Model of the compiled functions of swiftsimio/accelerated.py with integers of 64 bits, and of 32 bits in
    [chunk_array_index].  RangesModel.v has the same functions with unlimited integers.  Definitions only. *)
From Coq Require Import List ZArith Bool.
From Verif Require Import Base RangesModel.
Import ListNotations.
Open Scope Z_scope.

(** Signed integers of a number of bits: sums and products keep the lowest bits. *)
Definition word (bits z : Z) : Z := (z + 2 ^ (bits - 1)) mod 2 ^ bits - 2 ^ (bits - 1).
Definition i64 (z : Z) : Z := word 64 z.
Definition i32 (z : Z) : Z := word 32 z.

(** accelerated.py:82-101 [ranges_from_array]. *)
Fixpoint ranges_loop64 (start stop : Z) (values : list Z) : list range :=
  match values with
  | [] => [(start, i64 (stop + 1))]
  | value :: rest =>
      if negb (value =? i64 (stop + 1))
      then (start, i64 (stop + 1)) :: ranges_loop64 value value rest
      else ranges_loop64 start value rest
  end.

Definition ranges_from_array64 (array : list Z) : list range :=
  match array with
  | [] => [(0, 0)]
  | x :: rest => ranges_loop64 x x rest
  end.

(** accelerated.py:226-242. *)
Definition chunk_step64 (chunk_size array_length : Z) (acc : list range) (bounds : range) : list range :=
  let lower := i64 (i64 (fst bounds / chunk_size) * chunk_size) in
  let upper := Z.min (i64 (i64 (- i64 (i64 (- snd bounds) / chunk_size)) * chunk_size)) array_length in
  match acc with
  | [] => [(lower, upper)]
  | (l0, u0) :: older =>
      if u0 <? lower then (lower, upper) :: acc
      else (l0, upper) :: older
  end.

Definition get_chunk_ranges64 (ranges : list range) (chunk_size array_length : Z) : list range :=
  rev (fold_left (chunk_step64 chunk_size array_length) ranges []).

(** [np.asarray([...]).sum()] and [np.diff(...).sum()]. *)
Definition sum64 (l : list Z) : Z := fold_left (fun s x => i64 (s + x)) l 0.
Definition lengths64 (ranges : list range) : list Z := map (fun b => i64 (snd b - fst b)) ranges.

(** accelerated.py:266-272: [lower + j] for [j] below the length goes to position [i + j]. *)
Fixpoint expand_loop64 (ranges : list range) (i : Z) (output : list Z) : res (list Z) :=
  match ranges with
  | [] => Ok output
  | (lower, upper) :: rest =>
      let bound_length := i64 (upper - lower) in
      let vals := map (fun j => i64 (lower + j)) (zrange 0 bound_length) in
      if (i <? 0) || (zlen output <? i64 (i + zlen vals))
      then Err UndefinedRead
      else expand_loop64 rest (i64 (i + bound_length)) (splice (Z.to_nat i) vals output)
  end.

(** accelerated.py:247-274 [expand_ranges]. *)
Definition expand_ranges64 (ranges : list range) : res (list Z) :=
  let length_ := sum64 (lengths64 ranges) in
  if length_ <? 0 then Err ValueError
  else expand_loop64 ranges 0 (repeat 0 (Z.to_nat length_)).

(** accelerated.py:311-324: the index of the chunk of every range, stored in 32 bits. *)
Definition assign_chunks32 (chunks ranges : list range) : list Z :=
  map (fun i => i32 (Z.of_nat i)) (assign_chunks chunks 0 ranges).

(** accelerated.py:329-339.  Negative indices count from the end. *)
Fixpoint adjust_ranges64 (chunks : list range) (idx : list Z) (ranges : list range) (running_sum : Z) : res (list range) :=
  match idx, ranges with
  | i :: idx', r :: ranges' =>
      match take_one chunks i with
      | Err e => Err e
      | Ok this_chunk =>
          let offset := i64 (fst this_chunk - running_sum) in
          let adjusted := (i64 (fst r - offset), i64 (snd r - offset)) in
          match idx' with
          | [] => Ok [adjusted]
          | j :: _ =>
              let running_sum' :=
                if i <? j then i64 (running_sum + i64 (snd this_chunk - fst this_chunk))
                else running_sum in
              match adjust_ranges64 chunks idx' ranges' running_sum' with
              | Ok rest => Ok (adjusted :: rest)
              | Err e => Err e
              end
          end
      end
  | _, _ => Err IndexError
  end.

(** accelerated.py:277-341 [extract_ranges_from_chunks]. *)
Definition extract_ranges64 {B} (array : list B) (chunks ranges : list range) : res (list B) :=
  bind (adjust_ranges64 chunks (assign_chunks32 chunks ranges) ranges 0) (fun adjusted =>
  bind (expand_ranges64 adjusted) (fun indices =>
  all_ok (map (take_one array) indices))).

(** accelerated.py:344-426 [read_ranges_from_file_chunked]. *)
Definition read_ranges_chunked64 {A B} (col : A -> B) (data : list A) (chunk_size : Z) (ranges : list range)
  : res (list (option B)) :=
  let chunk_ranges := get_chunk_ranges64 ranges chunk_size (zlen data) in
  bind (np_empty (sum64 (lengths64 chunk_ranges))) (fun output =>
  bind (read_loop col data chunk_ranges 0 output) (fun output =>
  extract_ranges64 output chunk_ranges ranges)).

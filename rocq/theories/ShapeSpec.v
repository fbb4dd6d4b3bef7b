(** Specification vocabulary for datasets with any number of axes. *)
From Coq Require Import List ZArith.
From Verif Require Import Base RangesSpec ShapeModel.
Import ListNotations.
Open Scope Z_scope.

(** Axes have a length, rows have all their elements, chunks have rows. *)
Definition wf_ndset {V} (set : ndset V) : Prop :=
  Forall (fun d => 1 <= d) (nd_tail set) /\
  Forall (fun row => zlen row = fold_right Z.mul 1 (nd_tail set)) (nd_rows set) /\
  (forall c, nd_chunk set = Some c -> 0 < c).

(** The column is one of the second axis, if there is a second axis. *)
Definition column_in (axes : list Z) (column : option nat) : Prop :=
  match column, axes with
  | Some j, d :: _ => Z.of_nat j < d
  | _, _ => True
  end.

(** The part of a row that belongs to a column: of [d * w] elements the [w] elements from [j * w]. *)
Definition part_of {V} (axes : list Z) (column : option nat) (row part : list V) : Prop :=
  match column, axes with
  | Some j, _ :: rest =>
      let w := fold_right Z.mul 1 rest in
      zlen part = w /\ forall k, 0 <= k < w -> nth_error part (Z.to_nat k) = nth_error row (Z.to_nat (Z.of_nat j * w + k))
  | _, _ => part = row
  end.

(** [out] holds the (parts of) rows [idx], all of it from the file. *)
Definition shows {V} (set : ndset V) (column : option nat) (idx : list Z) (out : list (list (option V))) : Prop :=
  Forall2 (fun i o => 0 <= i /\ exists row part, nth_error (nd_rows set) (Z.to_nat i) = Some row /\
                                                part_of (nd_tail set) column row part /\ o = map Some part) idx out.

(** Axes that do not matter. *)
Definition ones (l : list Z) : Prop := Forall (fun d => d = 1) l.

(** The axes of a field, or of a column of it, apart from the first. *)
Definition axes_left (axes : list Z) (column : option nat) : list Z :=
  match column with Some _ => tl axes | None => axes end.

(** The rows are read one by one: no range has more than one row, no chunk has another row than the one asked for, and
    no two rows next to each other are asked for in a chunked dataset. *)
Definition one_by_one {V} (set : ndset V) (ranges : list (Z * Z)) : Prop :=
  Forall (fun r => snd r - fst r <= 1) ranges /\
  forall c i, nd_chunk set = Some c -> In i (indices_of ranges) ->
    ~ In (i + 1) (indices_of ranges) /\ forall k, 0 <= k < zlen (nd_rows set) -> k / c = i / c -> k = i.

(** There is something to read; in a chunked dataset all ranges have rows. *)
Definition asks {V} (set : ndset V) (ranges : list (Z * Z)) : Prop :=
  (exists r, In r ranges /\ fst r < snd r) /\
  (nd_chunk set = None \/ Forall (fun r => fst r < snd r) ranges).

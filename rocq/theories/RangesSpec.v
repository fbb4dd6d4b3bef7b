(** Specification vocabulary for reading row ranges; independent of the readers. *)
From Coq Require Import List ZArith Permutation Sorted.
From Verif Require Import Base.
Import ListNotations.
Open Scope Z_scope.

(** The row indices a list of half-open ranges stands for, in order. *)
Definition indices_of (ranges : list (Z * Z)) : list Z :=
  flat_map (fun r => zrange (fst r) (snd r)) ranges.

(** Number of rows a list of ranges stands for. *)
Definition total_rows (ranges : list (Z * Z)) : Z :=
  sumZ (map (fun r => snd r - fst r) ranges).

(** A range of a dataset with [n] rows. *)
Definition in_bounds (n : Z) (r : Z * Z) : Prop :=
  0 <= fst r /\ fst r <= snd r /\ snd r <= n.

(** [out] is a fully initialised array that holds, one for one, the rows of [data] with
    the indices [idx] (after selecting columns with [col]). *)
Definition rows_are {A B} (col : A -> B) (data : list A) (idx : list Z)
           (out : list (option B)) : Prop :=
  Forall2 (fun i o => 0 <= i /\ exists row, nth_error data (Z.to_nat i) = Some row
                                            /\ o = Some (col row)) idx out.

(** Starts and ends in non-decreasing order. *)
Definition ordered_ranges (ranges : list (Z * Z)) : Prop :=
  StronglySorted (fun a b => fst a <= fst b /\ snd a <= snd b) ranges.

(** The row sets of two ranges do not meet. *)
Definition disjoint_ranges (a b : Z * Z) : Prop :=
  forall x, ~ (fst a <= x < snd a /\ fst b <= x < snd b).

Definition pairwise_disjoint (ranges : list (Z * Z)) : Prop :=
  ForallOrdPairs disjoint_ranges ranges.

(** What is needed of [np.argsort]: a permutation of the positions that sorts. *)
Definition is_argsort (argsort : list Z -> list nat) : Prop :=
  forall keys,
    Permutation (argsort keys) (seq 0 (length keys)) /\
    StronglySorted Z.le (map (fun i => nth i keys 0) (argsort keys)).

(** A range of a dataset of [n] rows made of whole chunks of [chunk_size] rows, of which
    the last chunk of the dataset may be short. *)
Definition whole_chunks (chunk_size n : Z) (c : Z * Z) : Prop :=
  0 <= fst c /\ fst c <= snd c /\ snd c <= n /\
  (chunk_size | fst c) /\ ((chunk_size | snd c) \/ snd c = n).

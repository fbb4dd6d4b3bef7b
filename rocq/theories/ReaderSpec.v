(** Specification vocabulary for field access. *)
From Coq Require Import List ZArith Bool.
From Verif Require Import Base RangesModel RangesSpec MaskModel MaskSpec ReaderModel.
Import ListNotations.
Open Scope Z_scope.

(** A field that stores one row for each of [n] particles. *)
Definition field_of {V} (n : Z) (f : field V) : Prop :=
  zlen (fd_rows f) = n /\
  (fd_2d f = true -> Forall (fun r => zlen r = fd_width f) (fd_rows f)) /\
  (forall c, fd_layout f = Chunked c -> 0 < c).

(** The column exists. *)
Definition column_ok {V} (f : field V) (column : option nat) : Prop :=
  match column with Some j => fd_2d f = true -> Z.of_nat j < fd_width f | None => True end.

(** The entry of a row that a slot shows: the whole row or one column of it. *)
Definition entry_of {V} (f : field V) (column : option nat) (row e : list V) : Prop :=
  match column with
  | Some j => if fd_2d f then exists v, nth_error row j = Some v /\ e = [v] else e = row
  | None => e = row
  end.

(** [out] holds the entries of the field's rows [idx], in that order, and nothing
    uninitialised. *)
Definition shows_rows {V} (f : field V) (column : option nat) (idx : list Z)
           (out : list (option (list V))) : Prop :=
  Forall2 (fun i o => 0 <= i /\ exists row e, nth_error (fd_rows f) (Z.to_nat i) = Some row /\
                                              o = Some e /\ entry_of f column row e) idx out.

(** The value an attribute has according to the operations on it: what the file holds, until
    it is set; [del] (or assigning None) goes back to the file; in-place changes act on the
    current value. *)
Definition slot_of {A} (op : ds_op A) : slot :=
  match op with DGet s | DSet s _ | DDel s | DInPlace s _ => s end.

Definition value_after {A} (content : res (option A)) (op : ds_op A) (cur : res (option A))
  : res (option A) :=
  match op with
  | DGet _ => cur
  | DSet _ (Some v) => Ok (Some v)
  | DSet _ None => content
  | DDel _ => content
  | DInPlace _ f => match cur with Ok (Some v) => Ok (Some (f v)) | other => other end
  end.

Definition current_value {A} (content : slot -> res (option A)) (history : list (ds_op A)) (s : slot)
  : res (option A) :=
  fold_left (fun cur op => value_after (content s) op cur)
            (filter (fun op => slot_eqb (slot_of op) s) history) (content s).

(** What the user sees from one operation after a history. *)
Definition expected_output {A} (content : slot -> res (option A)) (history : list (ds_op A))
           (op : ds_op A) : res (option A) :=
  match op with
  | DGet s => current_value content history s
  | DSet _ _ | DDel _ => Ok None
  | DInPlace s _ => match current_value content history s with
                    | Ok (Some _) => Ok None
                    | Ok None => Err TypeError
                    | Err e => Err e
                    end
  end.

(** Operations that drop the stored value of a slot. *)
Definition drops {A} (s : slot) (op : ds_op A) : bool :=
  match op with
  | DDel t => slot_eqb t s
  | DSet t None => slot_eqb t s
  | _ => false
  end.

Definition occurrences (s : slot) (l : list slot) : nat := length (filter (slot_eqb s) l).

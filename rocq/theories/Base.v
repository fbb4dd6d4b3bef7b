(** Shared vocabulary of the model: Python results, integer ranges, buffers. *)
From Coq Require Import List ZArith Lia Bool.
Import ListNotations.
Open Scope Z_scope.

(** Python exceptions that the modelled code can raise.  [UndefinedRead] stands
    for an access outside an array by numba code compiled without bounds checks
    (the result is then unspecified memory). *)
Inductive pyerr : Set :=
| ValueError | TypeError | IndexError | KeyError | RuntimeError | AttributeError
| NotImplementedErr | OSErr | AssertionErr | InvalidSnapshot | InvalidConversion
| InvalidScaleFactor | UnboundLocal | UndefinedRead | ZeroDivision | InvalidUnit | OverflowErr.

(** Outcome of a Python call: a value or a raised exception. *)
Inductive res (A : Type) : Type :=
| Ok (a : A)
| Err (e : pyerr).
Arguments Ok {A} a.
Arguments Err {A} e.

Definition bind {A B} (x : res A) (f : A -> res B) : res B :=
  match x with Ok a => f a | Err e => Err e end.

Definition is_ok {A} (x : res A) : bool :=
  match x with Ok _ => true | Err _ => false end.

Notation "'do' x <- e ; f" := (bind e (fun x => f))
  (at level 200, x name, e at level 100, f at level 200, only parsing).

(** [zlen l]: Python's [len(l)]. *)
Definition zlen {A} (l : list A) : Z := Z.of_nat (length l).

(** [zrange a b]: Python's [range(a, b)]. *)
Definition zrange (a b : Z) : list Z :=
  map (fun k => a + Z.of_nat k) (seq 0 (Z.to_nat (b - a))).

Definition sumZ (l : list Z) : Z := fold_right Z.add 0 l.

(** [all_ok l]: collect a list of results, or the first error. *)
Fixpoint all_ok {A} (l : list (res A)) : res (list A) :=
  match l with
  | [] => Ok []
  | x :: xs => match x with
               | Err e => Err e
               | Ok a => match all_ok xs with Ok r => Ok (a :: r) | Err e => Err e end
               end
  end.

(** [upd i x l]: [l[i] = x] for a list (no effect when [i] is out of range; every
    use in the model is guarded by a bounds check). *)
Fixpoint upd {A} (i : nat) (x : A) (l : list A) : list A :=
  match l, i with
  | [], _ => []
  | _ :: t, O => x :: t
  | h :: t, S j => h :: upd j x t
  end.

(** [splice pos vals buf]: [buf[pos : pos + len(vals)] = vals]. *)
Definition splice {A} (pos : nat) (vals buf : list A) : list A :=
  firstn pos buf ++ vals ++ skipn (pos + length vals) buf.

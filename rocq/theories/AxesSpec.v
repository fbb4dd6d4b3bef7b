(** Specification vocabulary for functions applied over axes. *)
From Coq Require Import List ZArith Bool Reals.
From Verif Require Import Base AxesModel.
Import ListNotations.
Open Scope R_scope.

(** All indices of an array of a given shape. *)
Fixpoint indices (sh : list nat) : list (list nat) :=
  match sh with
  | [] => [[]]
  | n :: t => flat_map (fun i => map (cons i) (indices t)) (seq 0 n)
  end.

Definition total (l : list R) : R := fold_right Rplus 0 l.

(** The entries of an index along chosen axes. *)
Definition along (axes idx : list nat) : list nat := map (fun i => nth i idx O) axes.

(** The sum of all numbers of [x] whose index, along the axes [left], is [idx]: the sum
    over all other axes. *)
Definition summed {A} (x : nd A) (left idx : list nat) : R :=
  total (map (at_ x)
    (filter (fun j => if list_eq_dec Nat.eq_dec (along left j) idx then true else false)
            (indices (shape x)))).

(** [left_after n axes left]: of an array with [n] axes, after a sum over each of
    [axes], each counted among the axes left by the sums before it, the axes [left]
    remain. *)
Inductive left_after (n : nat) : list Z -> list nat -> Prop :=
| la_none : left_after n [] (seq 0 n)
| la_next : forall axes i before axis after,
    left_after n axes (before ++ axis :: after) ->
    (i = Z.of_nat (length before) \/ i = - Z.of_nat (S (length after)))%Z ->
    left_after n (axes ++ [i]) (before ++ after)
| la_scalar : forall axes i, left_after n axes [] -> (i = 0 \/ i = -1)%Z -> left_after n (axes ++ [i]) [].

(** [y] holds the sums of [x] over all axes but [left], and belongs to the same class
    with the same attributes. *)
Definition agrees {A} (x y : nd A) (left : list nat) : Prop :=
  own y = own x /\ shape y = along left (shape x)
  /\ forall idx, In idx (indices (shape y)) -> at_ y idx = summed x left idx.

(** The outcome of a sum over several axes in turn. *)
Definition outcome {A} (x : nd A) (done : list Z) (r : res (nd A)) : Prop :=
  match r with
  | Ok y => exists left, left_after (length (shape x)) done left /\ agrees x y left
  | Err e => e = IndexError /\ forall left, ~ left_after (length (shape x)) done left
  end.
Definition united {A} (x : nd A) : Prop := own x <> Numpy.

(** What [numpy.apply_over_axes] is documented to do: the axes that are not named stay,
    those that are named have length one. *)
Definition kept (n : nat) (axes : list nat) : list nat :=
  filter (fun i => if in_dec Nat.eq_dec i axes then false else true) (seq 0 n).
Definition flat (n : nat) (axes : list nat) (sh : list nat) : list nat :=
  map (fun i => if in_dec Nat.eq_dec i axes then 1%nat else nth i sh O) (seq 0 n).
Definition kept_sums {A} (x y : nd A) (axes : list nat) : Prop :=
  own y = own x /\ shape y = flat (length (shape x)) axes (shape x)
  /\ forall idx, In idx (indices (shape y)) ->
     at_ y idx = summed x (kept (length (shape x)) axes) (along (kept (length (shape x)) axes) idx).
(** The axis meant by an integer. *)
Definition meant (n : nat) (i : Z) (k : nat) : Prop :=
  (k < n)%nat /\ (i = Z.of_nat k \/ i = Z.of_nat k - Z.of_nat n)%Z.

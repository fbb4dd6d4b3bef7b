(** What the bytes of an array stand for; independent of how byte orders are changed. *)
From Coq Require Import List ZArith Bool.
From Verif Require Import Base NamesModel OrderModel.
Import ListNotations.
Open Scope Z_scope.

(** Integers, floats, parts of complex numbers and characters are a function of the number that their
    bytes make. *)
Inductive value :=
| VNumber (parts : list Z)
| VOpaque (b : list byte)
| VStruct (l : list (name * value)).

(** The number that bytes make, the lowest first. *)
Inductive little : list byte -> Z -> Prop :=
| little_nil : little [] 0
| little_cons : forall b l n, little l n -> little (b :: l) (b + 256 * n).

Inductive number : order -> list byte -> Z -> Prop :=
| number_little : forall l n, little l n -> number Little l n
| number_big : forall l n, little (rev l) n -> number Big l n.

Inductive means : dtype -> list byte -> value -> Prop :=
| means_number : forall o size (pieces : list (list byte)) ns,
    Forall (fun p => length p = size) pieces -> Forall2 (number o) pieces ns ->
    means (Number o size (length pieces)) (concat pieces) (VNumber ns)
| means_opaque : forall b, means (Opaque (length b)) b (VOpaque b)
| means_struct : forall l b vs, means_fields l b vs -> means (Struct l) b (VStruct vs)
with means_fields : fields -> list byte -> list (name * value) -> Prop :=
| means_end : forall b, means_fields (FEnd (length b)) b []
| means_cons : forall gap n d l b r v vs,
    means d b v -> means_fields l r vs ->
    means_fields (FCons (length gap) n d l) (gap ++ b ++ r) ((n, v) :: vs).

(** The numbers of a type that have more than one byte are in this order. *)
Inductive in_order (o : order) : dtype -> Prop :=
| in_order_same : forall size parts, in_order o (Number o size parts)
| in_order_byte : forall p size parts, (size <= 1)%nat -> in_order o (Number p size parts)
| in_order_opaque : forall size, in_order o (Opaque size)
| in_order_struct : forall l, in_order_fields o l -> in_order o (Struct l)
with in_order_fields (o : order) : fields -> Prop :=
| in_order_end : forall gap, in_order_fields o (FEnd gap)
| in_order_cons : forall gap n d l, in_order o d -> in_order_fields o l -> in_order_fields o (FCons gap n d l).

(** The structures of a structure have one order each; fields of one structure have different names. *)
Fixpoint plain (l : fields) : Prop :=
  match l with
  | FEnd _ => True
  | FCons _ n d l => (exists o, in_order o d) /\ ~ In n (names_of l) /\ plain l
  end.

Definition simple (d : dtype) : Prop := match d with Struct l => plain l | _ => True end.

(** The rows of an array stand for rows of values. *)
Definition shows (x : array) (vs : list (list value)) : Prop := Forall2 (Forall2 (means (a_type x))) (a_rows x) vs.

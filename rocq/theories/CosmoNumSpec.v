(** What the operations do with numbers and with numbers of entries. *)
From Coq Require Import List ZArith Bool Reals.
From Verif Require Import Base CosmoModel.
Import ListNotations.
Open Scope R_scope.

(** The number an operation gives for two numbers. *)
Inductive gives2 : bop -> R -> R -> R -> Prop :=
| g_add : forall x y z, z - y = x -> gives2 Badd x y z
| g_sub : forall x y z, z + y = x -> gives2 Bsub x y z
| g_mul : forall x y z, z = x * y -> gives2 Bmul x y z
| g_div : forall x y z, y <> 0 -> z * y = x -> gives2 Bdiv x y z
| g_max_l : forall x y, y <= x -> gives2 Bmax x y x
| g_max_r : forall x y, x <= y -> gives2 Bmax x y y
| g_min_l : forall x y, x <= y -> gives2 Bmin x y x
| g_min_r : forall x y, y <= x -> gives2 Bmin x y y.

(** The number an operation gives for one number. *)
Inductive gives1 : uop -> R -> R -> Prop :=
| g_neg : forall x z, x + z = 0 -> gives1 Uneg x z
| g_abs_pos : forall x, 0 <= x -> gives1 Uabs x x
| g_abs_neg : forall x z, x < 0 -> x + z = 0 -> gives1 Uabs x z
| g_sqrt : forall x z, 0 <= z -> z * z = x -> gives1 Usqrt x z
| g_square : forall x z, z = x * x -> gives1 Usquare x z
| g_cbrt : forall x z, z * z * z = x -> gives1 Ucbrt x z
| g_recip : forall x z, x * z = 1 -> gives1 Urecip x z.

(** What a comparison of two numbers says. *)
Definition says (o : cop) (x y : R) : Prop :=
  match o with Clt => x < y | Cle => x <= y | Cgt => x > y | Cge => x >= y | Ceq => x = y | Cne => x <> y end.

(** Entry by entry; a single entry stands for as many as the other side has. *)
Definition entry (l : list R) (i : nat) : option R :=
  match l with [x] => Some x | _ => nth_error l i end.
Definition size (l : list R) (n : nat) : Prop := length l = n \/ length l = 1%nat.
Inductive entrywise {C} (f : R -> R -> C) (xs ys : list R) : res (list C) -> Prop :=
| ew_fits : forall n vs, size xs n -> size ys n -> (length xs = n \/ length ys = n) -> length vs = n ->
    (forall i, (i < n)%nat -> exists x y, entry xs i = Some x /\ entry ys i = Some y /\ nth_error vs i = Some (f x y)) ->
    entrywise f xs ys (Ok vs)
| ew_differ : length xs <> length ys -> length xs <> 1%nat -> length ys <> 1%nat -> entrywise f xs ys (Err ValueError).

(** Model of the rest of [cosmo_factor], swiftsimio/objects.py 362-836: operands that are no
    factors, the reflected operators and the comparisons.

    Simplifications.  As in CosmoModel.v; texts of expressions and numbers are parameters. *)
From Coq Require Import String List Bool Reals.
From Verif Require Import Base CosmoModel.
Import ListNotations.
Open Scope R_scope.

(** The other operand: a factor, a number (which has operators of its own), or anything else. *)
Inductive fop := FFactor (c : cf) | FNumber | FOther.

(** 386-391, 427-430, 467-470, 514-515: [ValueError] for what is no factor. *)
Definition on_factor {A} (f : cf -> cf -> res A) (x : cf) (b : fop) : res A :=
  match b with FFactor y => f x y | _ => Err ValueError end.
Definition f_add : cf -> fop -> res cf := on_factor cf_add.
Definition f_sub : cf -> fop -> res cf := on_factor cf_add.
Definition f_mul : cf -> fop -> res cf := on_factor cf_mul.
Definition f_div : cf -> fop -> res cf := on_factor cf_div.

(** [__radd__], [__rsub__], [__rmul__], 534-609: the operator of [self]. *)
Definition f_radd (x : cf) (b : fop) : res cf := f_add x b.
Definition f_rsub (x : cf) (b : fop) : res cf := f_sub x b.
Definition f_rmul (x : cf) (b : fop) : res cf := f_mul x b.
(** [__rtruediv__], 611-634: the operator of the other operand; a number has one that gives
    [NotImplemented], so that Python raises [TypeError]; others may have none. *)
Definition f_rdiv (x : cf) (b : fop) : res cf :=
  match b with
  | FFactor y => cf_div y x
  | FNumber => Err TypeError
  | FOther => Err AttributeError
  end.

(** [__lt__], [__gt__], [__le__], [__ge__], 654-756: the values of the factors; [None] has no order. *)
Definition by_value (test : R -> R -> bool) (x y : cf) : res bool :=
  match a_factor x, a_factor y with
  | Some u, Some v => Ok (test u v)
  | _, _ => Err TypeError
  end.
Definition f_lt : cf -> fop -> res bool := on_factor (by_value Rltb).
Definition f_gt : cf -> fop -> res bool := on_factor (by_value (fun u v => Rltb v u)).
Definition f_le : cf -> fop -> res bool := on_factor (by_value Rleb).
Definition f_ge : cf -> fop -> res bool := on_factor (by_value (fun u v => Rleb v u)).
(** [__eq__], [__ne__], 758-825. *)
Definition f_eq : cf -> fop -> res bool := on_factor (fun x y => Ok (cf_eq x y)).
Definition f_ne (x : cf) (b : fop) : res bool := do r <- f_eq x b; Ok (negb r).

(** [__str__], 318-327, and [__repr__], 827-836. *)
Section Texts.
Variables (expr_text scale_text : option R -> string).
Definition f_str (x : cf) : string := (expr_text (cexpr x) ++ " at a=" ++ scale_text (cscale x))%string.
Definition f_repr (x : cf) : string :=
  ("cosmo_factor(expr=" ++ expr_text (cexpr x) ++ ", scale_factor=" ++ scale_text (cscale x) ++ ")")%string.
End Texts.

(** Specification vocabulary for arrays with units: the same array in a unit of size one. *)
From Coq Require Import List ZArith QArith Bool Reals.
From Verif Require Import Base MaskModel CosmoModel RegionModel UnitOpModel.
Import ListNotations.
Open Scope R_scope.

Definition scale (k : R) (x : carr) : carr := mkarr (map (Rmult k) (avals x)) (acf x) (acm x) (avt x) (acomp x).

Section Units.
Variable D : Type.

Definition bare (x : qarr D) : carr := scale (size (q_unit x)) (q_arr x).
Definition bare_op (o : qop D) : operand := match o with QArr x => OArr (bare x) | QPlain v => OPlain v end.

Fixpoint bare_expr (e : qexpr D) : expr :=
  match e with
  | QEArr x => EArr (bare x)
  | QENum v => ENum v
  | QEBin o e1 e2 => EBin o (bare_expr e1) (bare_expr e2)
  | QEUn o e1 => EUn o (bare_expr e1)
  | QEPow e1 p => EPow (bare_expr e1) p
  | QESum e1 => ESum (bare_expr e1)
  | QEProd e1 => EProd (bare_expr e1)
  end.

(** The dimensions of an operand; those of plain numbers are [done]. *)
Definition dims_of (done : D) (o : qop D) : D := match o with QArr x => dims (q_unit x) | QPlain _ => done end.

(** Units have a positive size. *)
Definition proper (x : qarr D) : Prop := 0 < size (q_unit x).
Definition proper_op (o : qop D) : Prop := match o with QArr x => proper x | QPlain _ => True end.
Fixpoint proper_expr (e : qexpr D) : Prop :=
  match e with
  | QEArr x => proper x
  | QENum _ => True
  | QEBin _ e1 e2 => proper_expr e1 /\ proper_expr e2
  | QEUn _ e1 | QEPow e1 _ | QESum e1 | QEProd e1 => proper_expr e1
  end.

Definition bare_row (r : qrow D) : row :=
  match r with
  | QRowNone => RowNone
  | QRowArray x => RowArray (bare x)
  | QRowList l => RowList (map bare l)
  end.
Definition bare_key (k : qkey D) : lkey := mklkey (fun a => bare (qk_min k a)) (fun a => bare (qk_max k a)).
Definition bare_meta (m : qmeta D) : lmeta := mklmeta (fun a => bare (qm_box m a)) (map bare_key (qm_keys m)).

(** Units of the dimensions [d]. *)
Definition has_dims (d : D) (x : qarr D) : Prop := proper x /\ dims (q_unit x) = d.
Definition row_dims (d : D) (r : qrow D) : Prop :=
  match r with
  | QRowNone => True
  | QRowArray x => has_dims d x
  | QRowList l => Forall (has_dims d) l
  end.
Definition meta_dims (d : D) (m : qmeta D) : Prop :=
  (forall a, has_dims d (qm_box m a)) /\ Forall (fun k => forall a, has_dims d (qk_min k a) /\ has_dims d (qk_max k a)) (qm_keys m).
End Units.

Arguments bare {D}. Arguments bare_op {D}. Arguments bare_expr {D}. Arguments proper {D}. Arguments proper_op {D}. Arguments proper_expr {D}.
Arguments bare_row {D}. Arguments bare_key {D}. Arguments bare_meta {D}. Arguments has_dims {D}. Arguments row_dims {D}. Arguments meta_dims {D}. Arguments dims_of {D}.

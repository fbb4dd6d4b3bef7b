(** What the operators and comparisons of [cosmo_factor] give. *)
From Coq Require Import List Bool Reals.
From Verif Require Import Base CosmoModel FactorModel.
Open Scope R_scope.

(** The value of a factor. *)
Definition worth (c : cf) (v : R) : Prop :=
  exists e a, cexpr c = Some e /\ cscale c = Some a /\ v = Rpower a e.
Definition worthless (c : cf) : Prop := cexpr c = None \/ cscale c = None.

(** A comparison. *)
Inductive compared (rel : R -> R -> Prop) (x : cf) : fop -> res bool -> Prop :=
| cm_yes : forall y u v, worth x u -> worth y v -> rel u v -> compared rel x (FFactor y) (Ok true)
| cm_no : forall y u v, worth x u -> worth y v -> ~ rel u v -> compared rel x (FFactor y) (Ok false)
| cm_none : forall y, worthless x \/ worthless y -> compared rel x (FFactor y) (Err TypeError)
| cm_number : compared rel x FNumber (Err ValueError)
| cm_other : compared rel x FOther (Err ValueError).

(** Sums and differences: factors of the same kind. *)
Inductive summed (x : cf) : fop -> res cf -> Prop :=
| sm_same : summed x (FFactor x) (Ok x)
| sm_differ : forall y, x <> y -> summed x (FFactor y) (Err InvalidScaleFactor)
| sm_number : summed x FNumber (Err ValueError)
| sm_other : summed x FOther (Err ValueError).
(** Products ([sign = 1]) and quotients ([sign = -1]): the same scale factor, exponents on both or on none. *)
Inductive multiplied (sign : R) (x : cf) : fop -> res cf -> Prop :=
| ml_both : forall y e f a, x = mkcf (Some e) a -> y = mkcf (Some f) a ->
    multiplied sign x (FFactor y) (Ok (mkcf (Some (e + sign * f)) a))
| ml_none : forall a, x = mkcf None a -> multiplied sign x (FFactor x) (Ok x)
| ml_differ : forall y, cscale x <> cscale y -> multiplied sign x (FFactor y) (Err InvalidScaleFactor)
| ml_one : forall y, cscale x = cscale y -> (cexpr x = None /\ cexpr y <> None \/ cexpr x <> None /\ cexpr y = None) ->
    multiplied sign x (FFactor y) (Err InvalidScaleFactor)
| ml_number : multiplied sign x FNumber (Err ValueError)
| ml_other : multiplied sign x FOther (Err ValueError).

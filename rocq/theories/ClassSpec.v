(** Classes, shapes and attributes of results. *)
From Coq Require Import String List Bool.
From Verif Require Import Base ClassModel.
Import ListNotations.

(** Direct inheritance, and inheritance. *)
Inductive base : klass -> klass -> Prop :=
| b_unyt : base UnytArray Ndarray
| b_unyt_quantity : base UnytQuantity UnytArray
| b_cosmo : base CosmoArray UnytArray
| b_cosmo_quantity : base CosmoQuantity CosmoArray
| b_cosmo_unyt : base CosmoQuantity UnytQuantity.
Inductive inherits : klass -> klass -> Prop :=
| in_self : forall c, inherits c c
| in_step : forall a b c, base a b -> inherits b c -> inherits a c.

Definition cosmo (c : klass) : Prop := c = CosmoArray \/ c = CosmoQuantity.
Definition unyt_only (c : klass) : Prop := c = UnytArray \/ c = UnytQuantity.

(** The class for a shape. *)
Inductive class_for : list nat -> klass -> Prop :=
| cl_scalar : class_for [] CosmoQuantity
| cl_array : forall n s, class_for (n :: s) CosmoArray.

Section Objects.
Context {F C D : Type}.
Variables (null : F) (none : C).
Notation obj := (pobj F C D).
(** Only objects of the package's classes have its attributes. *)
Definition wellmade (o : obj) : Prop := (exists a, o_attrs o = Some a) <-> cosmo (o_class o).
Definition wellmade_all (r : outcome F C D) : Prop :=
  match r with One o => wellmade o | Tuple l => forall o, In o l -> wellmade o end.

(** The object with the class its shape asks for; objects of unyt become objects of the
    package without known frame; other objects stay as they are. *)
Inductive fitted (o : obj) : obj -> Prop :=
| ft_other : ~ cosmo (o_class o) -> ~ unyt_only (o_class o) -> fitted o o
| ft_cosmo : forall c, cosmo (o_class o) -> class_for (o_shape o) c ->
    fitted o (mkp c (o_shape o) (o_data o) (o_attrs o))
| ft_unyt : forall c, unyt_only (o_class o) -> class_for (o_shape o) c ->
    fitted o (mkp c (o_shape o) (o_data o) (Some (mkat null None none true))).
(** The object with the attributes of [self], if it can have any. *)
Inductive handed (self o : obj) : obj -> Prop :=
| hd_cosmo : cosmo (o_class o) -> handed self o (mkp (o_class o) (o_shape o) (o_data o) (o_attrs self))
| hd_other : ~ cosmo (o_class o) -> handed self o o.

(** The three kinds of methods. *)
Definition keeping : list string :=
  ["astype"; "in_units"; "byteswap"; "compress"; "diagonal"; "flatten"; "ravel"; "repeat"; "swapaxes";
   "transpose"; "view"; "__copy__"; "copy"; "__deepcopy__"; "in_cgs"; "in_base"; "T"; "ua"; "unit_array"]%string.
Definition fitting : list string := ["take"; "reshape"; "__getitem__"; "__round__"]%string.

(** What a method makes of what unyt or numpy returned. *)
Inductive made (self : obj) : string -> outcome F C D -> outcome F C D -> Prop :=
| md_keeping : forall m o o', In m keeping -> handed self o o' -> made self m (One o) (One o')
| md_keeping_tuple : forall m l, In m keeping -> made self m (Tuple l) (Tuple l)
| md_fitting : forall m o o' o'', In m fitting -> fitted o o' -> handed self o' o'' -> made self m (One o) (One o'')
| md_fitting_tuple : forall m l l', In m fitting -> Forall2 fitted l l' -> made self m (Tuple l) (Tuple l')
| md_squeeze : forall o o', fitted o o' -> made self "squeeze" (One o) (One o')
| md_squeeze_tuple : forall l l', Forall2 fitted l l' -> made self "squeeze" (Tuple l) (Tuple l').

(** The results of a ufunc: each fitted, then given the attributes. *)
Inductive given (a : attrs F C) (o : obj) : obj -> Prop :=
| gv_other : ~ cosmo (o_class o) -> ~ unyt_only (o_class o) -> given a o o
| gv_fit : forall c, cosmo (o_class o) \/ unyt_only (o_class o) -> class_for (o_shape o) c ->
    given a o (mkp c (o_shape o) (o_data o) (Some a)).
Inductive given_all (a : attrs F C) : outcome F C D -> outcome F C D -> Prop :=
| ga_one : forall o o', given a o o' -> given_all a (One o) (One o')
| ga_tuple : forall l l', Forall2 (given a) l l' -> given_all a (Tuple l) (Tuple l').

(** The same for the hook: one result of the package keeps its class; of several, every scalar
    array becomes a quantity, and none of the others is changed unless it is unyt's. *)
Inductive hooked (a : attrs F C) (o : obj) : obj -> Prop :=
| hk_other : ~ cosmo (o_class o) -> ~ unyt_only (o_class o) -> hooked a o o
| hk_cosmo : cosmo (o_class o) -> hooked a o (mkp (o_class o) (o_shape o) (o_data o) (Some a))
| hk_unyt : forall c, unyt_only (o_class o) -> class_for (o_shape o) c -> hooked a o (mkp c (o_shape o) (o_data o) (Some a)).
Inductive hooked_each (a : attrs F C) (o : obj) : obj -> Prop :=
| he_scalar : o_class o <> Thing -> o_shape o = [] -> hooked_each a o (mkp CosmoQuantity [] (o_data o) (Some a))
| he_unyt : unyt_only (o_class o) -> o_shape o <> [] -> hooked_each a o (mkp CosmoArray (o_shape o) (o_data o) (Some a))
| he_cosmo : cosmo (o_class o) -> o_shape o <> [] -> hooked_each a o (mkp (o_class o) (o_shape o) (o_data o) (Some a))
| he_other : o_class o <> Thing -> ~ cosmo (o_class o) -> ~ unyt_only (o_class o) -> o_shape o <> [] -> hooked_each a o o.
Inductive hooked_all (a : attrs F C) : outcome F C D -> res (outcome F C D) -> Prop :=
| ha_one : forall o o', hooked a o o' -> hooked_all a (One o) (Ok (One o'))
| ha_tuple : forall l l', Forall2 (hooked_each a) l l' -> hooked_all a (Tuple l) (Ok (Tuple l'))
| ha_no_shape : forall l o, In o l -> o_class o = Thing -> hooked_all a (Tuple l) (Err AttributeError).
End Objects.

(** * Which function answers *)
Section Dispatch.
Context {N : Type}.
Inductive answers (unsupported own unyts : N -> bool) (func : N) (types : list klass) : answer -> Prop :=
| an_unsupported : unsupported func = true -> answers unsupported own unyts func types NotImpl
| an_class : forall t, In t types -> ~ cosmo t -> t <> Ndarray -> answers unsupported own unyts func types NotImpl
| an_own : unsupported func = false -> (forall t, In t types -> cosmo t \/ t = Ndarray) -> own func = true ->
    answers unsupported own unyts func types OwnFunction
| an_unyt : unsupported func = false -> (forall t, In t types -> cosmo t \/ t = Ndarray) -> own func = false ->
    unyts func = true -> answers unsupported own unyts func types UnytFunction
| an_numpy : unsupported func = false -> (forall t, In t types -> cosmo t \/ t = Ndarray) -> own func = false ->
    unyts func = false -> answers unsupported own unyts func types NumpyFunction.
End Dispatch.

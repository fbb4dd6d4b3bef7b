(** Model of the classes, shapes and attributes of arrays and quantities: the helpers of
    swiftsimio/_array_functions.py 128-306, the methods and hooks of [cosmo_array] and
    [cosmo_quantity] in swiftsimio/objects.py 1284-1408, 2025-2366, 2537-2539.

    Simplifications.
    - The numbers, the type of the numbers and the unit of an object are one value of an
      arbitrary type: nothing here looks at them.
    - numpy's and unyt's own methods are arbitrary functions; what they return is an object or
      a tuple of objects, or they raise.
    - Attributes are set on the object returned; an object returned that is also held
      elsewhere is not followed. *)
From Coq Require Import String List Bool Arith.
From Verif Require Import Base.
Import ListNotations.

(** * Classes *)
(** [Thing] has no shape and takes no part in numpy's protocols (numbers, None, lists);
    [Foreign] is another package's class of arrays. *)
Inductive klass := Thing | Foreign | Ndarray | UnytArray | UnytQuantity | CosmoArray | CosmoQuantity.
Definition klass_eqb (a b : klass) : bool :=
  match a, b with
  | Thing, Thing | Foreign, Foreign | Ndarray, Ndarray | UnytArray, UnytArray
  | UnytQuantity, UnytQuantity | CosmoArray, CosmoArray | CosmoQuantity, CosmoQuantity => true
  | _, _ => false
  end.
(** The order of inheritance, objects.py 908 and 2369. *)
Definition mro (c : klass) : list klass :=
  match c with
  | Thing => [Thing]
  | Foreign => [Foreign]
  | Ndarray => [Ndarray]
  | UnytArray => [UnytArray; Ndarray]
  | UnytQuantity => [UnytQuantity; UnytArray; Ndarray]
  | CosmoArray => [CosmoArray; UnytArray; Ndarray]
  | CosmoQuantity => [CosmoQuantity; CosmoArray; UnytQuantity; UnytArray; Ndarray]
  end.
Definition issubclass (c d : klass) : bool := existsb (klass_eqb d) (mro c).

Section Objects.
(** Labels with [NULL_CF], compressions with [None], and the rest of an object. *)
Context {F C D : Type} (null : F) (none : C).

Record attrs := mkat { at_cf : F; at_cm : option bool; at_comp : C; at_vt : bool }.
(** [o_attrs] is [None] when the object has no such attributes. *)
Record pobj := mkp { o_class : klass; o_shape : list nat; o_data : D; o_attrs : option attrs }.
Inductive outcome := One (o : pobj) | Tuple (l : list pobj).

Definition isinstance (o : pobj) (c : klass) : bool := issubclass (o_class o) c.
Definition scalar (o : pobj) : bool := match o_shape o with [] => true | _ => false end.

(** [__array_finalize__], objects.py 1284-1299. *)
Definition finalize (src : pobj) : attrs :=
  match o_attrs src with Some a => a | None => mkat null None none true end.
(** numpy's [view] of another class. *)
Definition np_view (c : klass) (o : pobj) : pobj :=
  mkp c (o_shape o) (o_data o) (if issubclass c CosmoArray then Some (finalize o) else None).
(** An object numpy derives from another one: the same class, finalized from it. *)
Definition derive (o : pobj) (shape : list nat) (d : D) : pobj :=
  mkp (o_class o) shape d (if issubclass (o_class o) CosmoArray then Some (finalize o) else None).

(** [_copy_cosmo_array_attributes_if_present], _array_functions.py 131-168. *)
Definition copy_attrs (from to : pobj) : pobj :=
  if negb (isinstance to CosmoArray && isinstance from CosmoArray) then to
  else mkp (o_class to) (o_shape to) (o_data to) (o_attrs from).
Definition copy_to (from : pobj) (r : outcome) : outcome :=
  match r with One o => One (copy_attrs from o) | Tuple l => Tuple l end.
(** [_propagate_cosmo_array_attributes_to_result], 171-202. *)
Definition propagate (f : pobj -> res outcome) (self : pobj) : res outcome :=
  do r <- f self; Ok (copy_to self r).

(** The method [view]: that of [cosmo_array] propagates, objects.py 1387. *)
Definition view (c : klass) (o : pobj) : pobj :=
  if isinstance o CosmoArray then copy_attrs o (np_view c o) else np_view c o.
(** [_promote_unyt_to_cosmo], 205-230. *)
Definition promote (o : pobj) : pobj :=
  if isinstance o UnytQuantity && negb (isinstance o CosmoQuantity) then view CosmoQuantity o
  else if isinstance o UnytArray && negb (isinstance o CosmoArray) then view CosmoArray o
  else o.
(** [_ensure_array_or_quantity_matches_shape], 233-265. *)
Definition matches_shape (o : pobj) : pobj :=
  if isinstance o CosmoArray && negb (isinstance o CosmoQuantity) && scalar o then view CosmoQuantity o
  else if isinstance o CosmoQuantity && negb (scalar o) then view CosmoArray o
  else o.
(** [_ensure_result_is_cosmo_array_or_quantity], 268-305. *)
Definition ensured (r : outcome) : outcome :=
  match r with
  | Tuple l => Tuple (map (fun o => matches_shape (promote o)) l)
  | One o => One (matches_shape (promote o))
  end.
Definition ensure {A} (f : A -> res outcome) (x : A) : res outcome := do r <- f x; Ok (ensured r).

(** * Methods and properties, objects.py 1377-1408 and 2537-2539 *)
Inductive wrapper := Propagated | Both | Ensured.
Definition methods : list (string * wrapper) :=
  [ ("astype", Propagated); ("in_units", Propagated); ("byteswap", Propagated); ("compress", Propagated);
    ("diagonal", Propagated); ("flatten", Propagated); ("ravel", Propagated); ("repeat", Propagated);
    ("swapaxes", Propagated); ("transpose", Propagated); ("view", Propagated); ("__copy__", Propagated);
    ("copy", Propagated); ("__deepcopy__", Propagated); ("in_cgs", Propagated); ("in_base", Propagated);
    ("take", Both); ("reshape", Both); ("__getitem__", Both); ("squeeze", Ensured);
    ("T", Propagated); ("ua", Propagated); ("unit_array", Propagated); ("__round__", Both) ]%string.
Definition wrapped (w : wrapper) (f : pobj -> res outcome) : pobj -> res outcome :=
  match w with
  | Propagated => propagate f
  | Both => propagate (ensure f)
  | Ensured => ensure f
  end.
(** The method [m] of [self], on top of what unyt's (or numpy's) method of this name does. *)
Definition call (m : string) (f : pobj -> res outcome) (self : pobj) : res outcome :=
  match find (fun p => String.eqb (fst p) m) methods with
  | Some p => wrapped (snd p) f self
  | None => Err AttributeError
  end.

(** [__mul__] (and [__rmul__]) by a unit, objects.py 2311-2366; [b] is the unit's own [__mul__]. *)
Definition mul_unit (b : pobj -> res outcome) (self : pobj) : res outcome :=
  do r <- ensure b (if scalar self then view UnytQuantity self else view UnytArray self);
  Ok (copy_to self r).

(** * Results of ufuncs *)
Definition set_attrs (a : attrs) (o : pobj) : pobj :=
  if isinstance o CosmoArray then mkp (o_class o) (o_shape o) (o_data o) (Some a) else o.
(** The end of [__array_ufunc__], objects.py 2211-2225. *)
Definition ufunc_result (a : attrs) (r : outcome) : outcome :=
  match ensured r with
  | Tuple l => Tuple (map (set_attrs a) l)
  | One o => One (set_attrs a o)
  end.
(** [__unyt_ufunc_finalize__], objects.py 2086-2114, the hook unyt calls. *)
Definition hook_item (o : pobj) : res pobj :=
  match o_class o with
  | Thing => Err AttributeError
  | _ => Ok (if scalar o then view CosmoQuantity o
             else if isinstance o UnytArray && negb (isinstance o CosmoArray) then view CosmoArray o
             else o)
  end.
Definition hook_result (a : attrs) (r : outcome) : res outcome :=
  match r with
  | Tuple l => do l' <- all_ok (map hook_item l); Ok (Tuple (map (set_attrs a) l'))
  | One o =>
      if isinstance o UnytArray
      then let o' := if negb (isinstance o CosmoArray)
                     then (if scalar o then view CosmoQuantity o else view CosmoArray o) else o in
           Ok (One (set_attrs a o'))
      else Ok (One o)
  end.
End Objects.
Arguments attrs : clear implicits.
Arguments pobj : clear implicits.
Arguments outcome : clear implicits.

(** * [__array_function__], objects.py 2246-2309 *)
(** Which function answers: the package's, unyt's or numpy's own. *)
Inductive answer := NotImpl | OwnFunction | UnytFunction | NumpyFunction.
Section Dispatch.
(** What unyt refuses, and for which functions the package and unyt have their own. *)
Context {N : Type} (unsupported own unyts : N -> bool).
Definition array_function (func : N) (types : list klass) : answer :=
  if unsupported func then NotImpl
  else if negb (forallb (fun t => issubclass t CosmoArray || klass_eqb t Ndarray) types) then NotImpl
  else if own func then OwnFunction
  else if unyts func then UnytFunction
  else NumpyFunction.

(** numpy's protocol (NEP 18): the classes of the arguments in order, each once, and each
    before the classes it inherits from. *)
Fixpoint insert (t : klass) (l : list klass) : list klass :=
  match l with
  | [] => [t]
  | u :: l' => if issubclass t u then t :: u :: l' else u :: insert t l'
  end.
Fixpoint collect (seen args : list klass) : list klass :=
  match args with
  | [] => seen
  | Thing :: rest => collect seen rest
  | t :: rest => collect (if existsb (klass_eqb t) seen then seen else insert t seen) rest
  end.
(** The first class that answers; [others] is what the classes of other packages say. *)
Fixpoint ask (others : klass -> answer) (func : N) (types todo : list klass) : res answer :=
  match todo with
  | [] => Err TypeError
  | t :: rest =>
      match (if issubclass t CosmoArray then array_function func types else others t) with
      | NotImpl => ask others func types rest
      | r => Ok r
      end
  end.
Definition dispatch (others : klass -> answer) (func : N) (args : list klass) : res answer :=
  let types := collect [] args in ask others func types types.
End Dispatch.

(** * [__str__], objects.py 1301-1318: [s] is unyt's text *)
Definition array_text (s : string) (cm : option bool) : string :=
  (s ++ " " ++ match cm with
               | Some true => "(Comoving)"
               | None => "(Physical/comoving not set)"
               | Some false => "(Physical)"
               end)%string.

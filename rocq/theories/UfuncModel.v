(** Model of numpy ufuncs on cosmo arrays: the registry [_cosmo_factor_ufunc_registry],
    swiftsimio/objects.py 982-1071, [cosmo_array.__array_ufunc__], objects.py 2152-2244,
    and the label handlers of swiftsimio/_array_functions.py 308-843 with their numbers
    of arguments and their warnings.

    Simplifications (besides those of CosmoModel.v and FuncModel.v).
    - What numpy computes from the numbers is a parameter: one list of numbers for every
      output of the ufunc.
    - ufuncs are given by their [__name__]; [true_divide], [mod], [conj] and [abs] are
      other names of [divide], [remainder], [conjugate] and [absolute] in numpy 2.
    - Units are unyt's: results of ufuncs that drop the label are taken to be plain
      numbers (unyt's registry drops the units of the same ufuncs).  An exponent of
      several elements is refused (unyt raises for an array with units).
    - Keyword arguments other than [out] are a list of operands ([axis], [keepdims] and
      the like are plain, [initial] and [where] may be cosmo arrays); [out] is a tuple, so it has no
      cosmology attributes for [_prepare_array_func_args].
    - The arguments named in [out] are given and returned as values; that they share
      memory with the inputs ([x += y]) is the caller's business.
    - The methods [at], [outer], [accumulate] and [reduceat] go the way of a call. *)
From Coq Require Import String List ZArith Bool Reals.
From Verif Require Import Base CosmoModel FuncModel.
Import ListNotations.
Open Scope R_scope.
Local Open Scope string_scope.

(** An argument: a cosmo array or quantity, numbers without cosmology attributes, the
    constant [False], or a list or tuple of numbers (which can be iterated over but has
    no method [any]). *)
Inductive uarg := UArr (x : carr) | UNum (v : list R) | UFalse | UList (v : list R).
Definition uop_of (a : uarg) : operand :=
  match a with
  | UArr x => OArr x
  | UNum v => OPlain v
  | UFalse => OPlain [0]
  | UList v => OPlain v
  end.

(** The functions of the registry. *)
Inductive handler :=
| HPreserve | HMultiply | HDivide | HPower | HSqrt | HSquare | HCbrt | HReciprocal
| HPassthrough | HWithout | HCompare | HArctan2.

(** objects.py 982-1071. *)
Definition registry : list (string * handler) :=
  [ ("add", HPreserve); ("subtract", HPreserve); ("multiply", HMultiply); ("divide", HDivide);
    ("logaddexp", HWithout); ("logaddexp2", HWithout); ("floor_divide", HDivide);
    ("negative", HPassthrough); ("power", HPower); ("remainder", HPreserve); ("fmod", HPreserve);
    ("absolute", HPassthrough); ("fabs", HPassthrough); ("rint", HWithout); ("sign", HWithout);
    ("conjugate", HPassthrough); ("exp", HWithout); ("exp2", HWithout); ("log", HWithout);
    ("log2", HWithout); ("log10", HWithout); ("expm1", HWithout); ("log1p", HWithout);
    ("sqrt", HSqrt); ("square", HSquare); ("cbrt", HCbrt); ("reciprocal", HReciprocal);
    ("sin", HWithout); ("cos", HWithout); ("tan", HWithout); ("sinh", HWithout);
    ("cosh", HWithout); ("tanh", HWithout); ("arcsin", HWithout); ("arccos", HWithout);
    ("arctan", HWithout); ("arctan2", HArctan2); ("arcsinh", HWithout); ("arccosh", HWithout);
    ("arctanh", HWithout); ("hypot", HPreserve); ("deg2rad", HWithout); ("rad2deg", HWithout);
    ("greater", HCompare); ("greater_equal", HCompare); ("less", HCompare);
    ("less_equal", HCompare); ("not_equal", HCompare); ("equal", HCompare);
    ("logical_and", HCompare); ("logical_or", HCompare); ("logical_xor", HCompare);
    ("logical_not", HWithout); ("maximum", HPassthrough); ("minimum", HPassthrough);
    ("fmax", HPreserve); ("fmin", HPreserve); ("isreal", HWithout); ("iscomplex", HWithout);
    ("isfinite", HWithout); ("isinf", HWithout); ("isnan", HWithout); ("signbit", HWithout);
    ("copysign", HPassthrough); ("nextafter", HPreserve); ("modf", HPassthrough);
    ("frexp", HWithout); ("floor", HPassthrough); ("ceil", HPassthrough);
    ("trunc", HPassthrough); ("spacing", HPassthrough); ("positive", HPassthrough);
    ("divmod", HPassthrough); ("isnat", HWithout); ("heaviside", HPreserve);
    ("_ones_like", HPreserve); ("matmul", HMultiply); ("clip", HPassthrough);
    ("vecdot", HMultiply) ].

Definition entry (u : string) : res handler :=
  match find (fun p => String.eqb (fst p) u) registry with
  | Some p => Ok (snd p)
  | None => Err KeyError
  end.

(** The label of a result, and the labels named in the warnings on the way. *)
Definition lw := (option cf * list cf)%type.

(** [__binary_preserve_cosmo_factor], _array_functions.py 420-475. *)
Definition w_preserve2 (x y : option cf) : res lw :=
  match x, y with
  | None, None => Ok (None, [])
  | Some c, None => Ok (Some c, [c])
  | None, Some d => Ok (Some d, [d])
  | Some c, Some d => if negb (cf_eq c d) then Err ValueError else Ok (Some c, [])
  end.
(** [reduce(__binary_preserve_cosmo_factor, cfs)], 394-417. *)
Fixpoint w_preserve_from (acc : lw) (l : list (option cf)) : res lw :=
  match l with
  | [] => Ok acc
  | y :: t => do r <- w_preserve2 (fst acc) y; w_preserve_from (fst r, (snd acc ++ snd r)%list) t
  end.
Definition w_preserve (l : list (option cf)) : res lw :=
  match l with [] => Err TypeError | x :: t => w_preserve_from (x, []) t end.

(** Handlers that do not warn. *)
Definition quiet (r : res (option cf)) : res lw := do c <- r; Ok (c, []).

(** [_return_without_cosmo_factor], 665-740: a second argument is compared with the
    first; [silent] is the truth value of [zero_comparison]. *)
Definition w_without2 (x y : option cf) (silent : bool) : res lw :=
  match x, y with
  | Some c, None => Ok (None, if silent then [] else [c])
  | None, Some d => Ok (None, if silent then [] else [d])
  | Some c, Some d => if negb (cf_eq c d) then Err ValueError else Ok (None, [])
  | None, None => Ok (None, [])
  end.

(** [_arctan2_cosmo_factor], 743-790. *)
Definition at_zero (c : cf) : cf := mkcf (Some 0) (cscale c).
Definition w_arctan2 (x y : option cf) : res lw :=
  match x, y with
  | None, None => Ok (None, [])
  | None, Some d => Ok (Some (at_zero d), [d])
  | Some c, None => Ok (Some (at_zero c), [c])
  | Some c, Some d => if negb (cf_eq c d) then Err ValueError else Ok (Some (at_zero c), [])
  end.

(** Whether an input of a comparison is zero, 826-842: [not x.any()] if it can be
    iterated over, [not x and x is not False] otherwise. *)
Definition is_zero (a : uarg) : res bool :=
  match a with
  | UArr x => Ok (forallb (Reqb 0) (avals x))
  | UNum v => Ok (forallb (Reqb 0) v)
  | UFalse => Ok false
  | UList _ => Err AttributeError
  end.

(** [registry[ufunc]( *cfs, inputs=inputs)]: a wrong number of labels is a type error. *)
Definition run_handler (h : handler) (cfs : list (option cf)) (inputs : list uarg) : res lw :=
  match h, cfs with
  | HPreserve, _ => w_preserve cfs
  | HMultiply, _ => quiet (h_multiply cfs)
  | HDivide, [c; d] => quiet (h_divide c d)
  | HPower, [c; d] =>
      match inputs with
      | [_; e] => match op_vals (uop_of e) with
                  | [p] => quiet (h_power c d p)
                  | _ => Err ValueError
                  end
      | _ => Err IndexError
      end
  | HSqrt, [c] => quiet (h_sqrt c)
  | HSquare, [c] => quiet (h_square c)
  | HCbrt, [c] => quiet (h_cbrt c)
  | HReciprocal, [c] => quiet (h_reciprocal c)
  | HPassthrough, [c] => quiet (h_passthrough1 c)
  | HPassthrough, [c; d] => quiet (h_passthrough2 c d)
  | HWithout, [_] => Ok (None, [])
  | HWithout, [c; d] => w_without2 c d false
  | HWithout, [c; d; z] => w_without2 c d (match z with Some _ => true | None => false end)
  | HCompare, [c; d] =>
      match inputs with
      | [x; y] => do zx <- is_zero x; do zy <- is_zero y; w_without2 c d (zx || zy)
      | _ => Err IndexError
      end
  | HArctan2, [c; d] => w_arctan2 c d
  | _, _ => Err TypeError
  end.

(** How a ufunc is called.  A reduction has the shape of its first input and the
    keyword [axis]: not given, [None], an integer or a tuple. *)
Inductive axis := AxMissing | AxNone | AxInt (z : Z) | AxTuple (l : list Z).
Inductive method := MCall | MReduce (shape : list Z) (ax : axis).

(** [inputs[0].shape[kwargs["axis"]]]. *)
Definition extent (shape : list Z) (ax : Z) : res Z :=
  let i := if (ax <? 0)%Z then (ax + Z.of_nat (length shape))%Z else ax in
  if (i <? 0)%Z then Err IndexError
  else match nth_error shape (Z.to_nat i) with Some n => Ok n | None => Err IndexError end.
Definition entries (shape : list Z) : Z := fold_right Z.mul 1%Z shape.

(** unyt's [POWER_MAPPING]. *)
Definition power_map (u : string) (n : Z) : Z := if String.eqb u "multiply" then n else (2 - n)%Z.

Definition reduced_number (shape : list Z) (ax : axis) : res Z :=
  match ax with
  | AxMissing | AxNone => Ok (entries shape)
  | AxInt z => extent shape z
  | AxTuple _ => Err TypeError
  end.

(** objects.py 2190-2208. *)
Definition label_for (u : string) (m : method) (cfs : list (option cf)) (inputs : list uarg) : res lw :=
  let through := do h <- entry u; run_handler h cfs inputs in
  match m with
  | MCall => through
  | MReduce shape ax =>
      match cfs with
      | [] => Err IndexError
      | c :: _ =>
          if existsb (String.eqb u) ["multiply"; "divide"] then
            do n <- reduced_number shape ax; quiet (h_power c None (IZR (power_map u n)))
          else if existsb (String.eqb u) ["logical_and"; "logical_or"; "logical_xor"; "logical_not"]
          then Ok (None, [])
          else through
      end
  end.

(** Whether unyt gives the result units. *)
Definition drops (u : string) : bool :=
  match entry u with
  | Ok HWithout | Ok HCompare => true
  | _ => false
  end.

(** What numpy computes: the numbers of every output. *)
Definition mfun := list (list R) -> list (list R) -> res (list (list R)).

Record uresult := mkures {
  r_values : list operand;     (* the results *)
  r_warned : list cf           (* the labels named in warnings *)
}.

Definition marked (v : list R) (c : option cf) (p : prepk) : carr := label v c p.
Definition out_marked (p : prepk) (c : option cf) (o : operand) (v : list R) : operand :=
  match o with OArr _ => OArr (marked v c p) | OPlain _ => OPlain v end.

(** [cosmo_array.__array_ufunc__]: the arrays given as [out] afterwards (unchanged if
    anything raises), and the result. *)
Definition array_ufunc (f : mfun) (u : string) (m : method) (inputs : list uarg)
           (kw : list operand) (out : option (list operand))
  : option (list operand) * res uresult :=
  let all_kw := (kw ++ match out with Some _ => [OPlain []] | None => [] end)%list in
  let r :=
    do p <- prepare_kw true (map uop_of inputs) all_kw;
    do l <- label_for u m (k_cfs p) inputs;
    do vs <- f (numbers (k_args p)) (numbers (firstn (length kw) (k_kw p)));
    Ok (p, fst l, vs,
        mkures (map (fun v => if drops u then OPlain v else OArr (marked v (fst l) p)) vs) (snd l)) in
  match r with
  | Err e => (out, Err e)
  | Ok (p, c, vs, r) =>
      (match out with
       | None => None
       | Some os => Some (map2 (out_marked p c) os vs)
       end, Ok r)
  end.

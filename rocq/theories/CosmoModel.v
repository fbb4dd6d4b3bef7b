(** Model of swiftsimio/objects.py ([cosmo_factor], [cosmo_array]) and of the
    argument handling in swiftsimio/_array_functions.py.

    Simplifications.
    - Numbers are exact reals (no rounding, no inf/nan); [x / 0] is whatever Coq's
      reals say ([0]), numpy would give inf or nan.
    - A scale-factor expression is a power [a ** e]; sympy expressions of any other
      shape do not occur in the package.
    - Units are left to unyt: operands are taken to be in compatible units, so that
      an operation on the stored numbers is the operation on the values.
    - Arrays are flat lists; broadcasting is that of equal lengths and of a single
      element.  Keyword arguments of [_prepare_array_func_args] are left to
      FuncModel.v: the operators and ufuncs modelled here have none. *)
From Coq Require Import String List ZArith Bool Reals.
From Verif Require Import Base.
Import ListNotations.
Open Scope R_scope.

(** * cosmo_factor, objects.py 238-836 *)

(** [cosmo_factor(expr, scale_factor)], objects.py 289-293.  [cexpr = Some e] is the
    expression [a ** e]. *)
Record cf := mkcf { cexpr : option R; cscale : option R }.

(** [NULL_CF], objects.py 839. *)
Definition null_cf : cf := mkcf None None.

(** [cosmo_factor.create], objects.py 295-316. *)
Definition cf_create (scale expo : R) : cf := mkcf (Some expo) (Some scale).

(** [cosmo_factor.a_factor], objects.py 330-344. *)
Definition a_factor (c : cf) : option R :=
  match cexpr c, cscale c with
  | Some e, Some a => Some (Rpower a e)
  | _, _ => None
  end.

(** [cosmo_factor.redshift], objects.py 346-360. *)
Definition cf_redshift (c : cf) : option R :=
  match cscale c with Some a => Some (/ a - 1) | None => None end.

Definition Reqb (x y : R) : bool := if Req_EM_T x y then true else false.
Definition Rleb (x y : R) : bool := if Rle_dec x y then true else false.
Definition Rltb (x y : R) : bool := if Rlt_dec x y then true else false.

(** Python's [==] on a float or [None]. *)
Definition oreqb (x y : option R) : bool :=
  match x, y with
  | None, None => true
  | Some a, Some b => Reqb a b
  | _, _ => false
  end.

(** [cosmo_factor.__add__] and [__sub__], objects.py 362-441: both require the same
    scale factor and the same expression. *)
Definition cf_add (x y : cf) : res cf :=
  if negb (oreqb (cscale x) (cscale y)) then Err InvalidScaleFactor
  else if negb (oreqb (cexpr x) (cexpr y)) then Err InvalidScaleFactor
  else Ok (mkcf (cexpr x) (cscale x)).

(** [cosmo_factor.__mul__], objects.py 443-488. *)
Definition cf_mul (x y : cf) : res cf :=
  if negb (oreqb (cscale x) (cscale y)) then Err InvalidScaleFactor
  else match cexpr x, cexpr y with
       | None, None => Ok (mkcf None (cscale x))
       | Some e, Some f => Ok (mkcf (Some (e + f)) (cscale x))
       | _, _ => Err InvalidScaleFactor
       end.

(** [cosmo_factor.__truediv__], objects.py 490-532. *)
Definition cf_div (x y : cf) : res cf :=
  if negb (oreqb (cscale x) (cscale y)) then Err InvalidScaleFactor
  else match cexpr x, cexpr y with
       | None, None => Ok (mkcf None (cscale x))
       | Some e, Some f => Ok (mkcf (Some (e - f)) (cscale x))
       | _, _ => Err InvalidScaleFactor
       end.

(** [cosmo_factor.__pow__], objects.py 636-652. *)
Definition cf_pow (x : cf) (p : R) : cf :=
  match cexpr x with
  | None => mkcf None (cscale x)
  | Some e => mkcf (Some (e * p)) (cscale x)
  end.

(** [np.isclose(x, y, rtol=1e-6)] with numpy's default [atol=1e-8]. *)
Definition isclose (x y : R) : bool :=
  Rleb (Rabs (x - y)) (1 / 10 ^ 8 + 1 / 10 ^ 6 * Rabs y).

(** [cosmo_factor.__eq__], objects.py 758-797; [__ne__] is its negation. *)
Definition cf_eq (x y : cf) : bool :=
  oreqb (cscale x) (cscale y)
  && match a_factor x, a_factor y with
     | None, None => true
     | Some u, Some v => isclose u v
     | _, _ => false
     end.

(** * cosmo_array *)

(** The [compression] attribute: [None], a string, or (objects.py 2109 with
    _array_functions.py 963-965) a pair of a flag and such a value. *)
Inductive comp : Set := CNone | CStr (s : string) | CPair (has : bool) (c : comp).

(** A [cosmo_array]: values and attributes.  [acf = None] is Python's [None] (an
    array whose [cosmo_factor] was dropped), [Some null_cf] the default. *)
Record carr := mkarr {
  avals : list R;
  acf : option cf;
  acm : option bool;          (* comoving: True, False or None *)
  avt : bool;                 (* valid_transform *)
  acomp : comp
}.

(** [_verify_valid_transform_validity], objects.py 139-165. *)
Definition verify (cm : option bool) (vt : bool) : res unit :=
  match cm, vt with
  | None, true => Err InvalidConversion
  | Some true, false => Err InvalidConversion
  | _, _ => Ok tt
  end.

(** [self.cosmo_factor.a_factor] as the right-hand side of [values *= ...]: an
    attribute error if the factor is [None], a type error if it has no value. *)
Definition factor_of (c : option cf) : res R :=
  match c with
  | None => Err AttributeError
  | Some c => match a_factor c with None => Err TypeError | Some f => Ok f end
  end.

(** [convert_to_comoving] without units, objects.py 1446-1456. *)
Definition convert_to_comoving (x : carr) : res carr :=
  match acm x with
  | Some true => Ok x
  | cm =>
      if negb (avt x) || (match cm with None => true | _ => false end)
      then Err InvalidConversion
      else do f <- factor_of (acf x);
           Ok (mkarr (map (fun v => v / f) (avals x)) (acf x) (Some true) (avt x) (acomp x))
  end.

(** [convert_to_physical] without units, objects.py 1494-1505. *)
Definition convert_to_physical (x : carr) : res carr :=
  match acm x with
  | None => Err InvalidConversion
  | Some false => Ok x
  | Some true =>
      do f <- factor_of (acf x);
      Ok (mkarr (map (fun v => v * f) (avals x)) (acf x) (Some false) (avt x) (acomp x))
  end.

(** [to_physical], objects.py 1540-1547; the copy carries the attributes over. *)
Definition to_physical (x : carr) : res carr :=
  if negb (avt x) && (match acm x with Some true => true | _ => false end)
  then Err InvalidConversion
  else convert_to_physical x.

(** [to_comoving], objects.py 1582-1589. *)
Definition to_comoving (x : carr) : res carr :=
  if negb (avt x) && (match acm x with Some false => false | _ => true end)
  then Err InvalidConversion
  else convert_to_comoving x.

(** [comoving != self.comoving] in [to], objects.py 1654. *)
Definition cm_eqb (x y : option bool) : bool :=
  match x, y with
  | None, None => true
  | Some a, Some b => Bool.eqb a b
  | _, _ => false
  end.

(** [to(comoving=cm)] without units, objects.py 1651-1676. *)
Definition to_cm (cm : option bool) (x : carr) : res carr :=
  match cm with
  | None => Ok x
  | Some b =>
      if negb (avt x) && negb (cm_eqb cm (acm x)) then Err InvalidConversion
      else if b then convert_to_comoving x else convert_to_physical x
  end.

(** An argument of a wrapped function: a cosmo array, or a number or array without
    cosmology attributes. *)
Inductive operand := OArr (x : carr) | OPlain (v : list R).

Definition op_cm (o : operand) : bool * option bool :=
  match o with OArr x => (true, acm x) | OPlain _ => (false, None) end.
Definition op_cf (o : operand) : option cf :=
  match o with OArr x => acf x | OPlain _ => None end.
Definition op_vt (o : operand) : bool :=
  match o with OArr x => avt x | OPlain _ => true end.
Definition op_comp (o : operand) : comp :=
  match o with OArr x => CPair true (acomp x) | OPlain _ => CPair false CNone end.
Definition op_vals (o : operand) : list R :=
  match o with OArr x => avals x | OPlain v => v end.

Fixpoint comp_eqb (x y : comp) : bool :=
  match x, y with
  | CNone, CNone => true
  | CStr s, CStr t => String.eqb s t
  | CPair a c, CPair b d => Bool.eqb a b && comp_eqb c d
  | _, _ => false
  end.

(** Result of [_prepare_array_func_args]. *)
Record prep := mkprep {
  p_args : list operand;
  p_cfs : list (option cf);
  p_cm : option bool;
  p_vt : bool;
  p_comp : comp
}.

Definition is_none (o : option bool) : bool := match o with None => true | _ => false end.
Definition is_true (o : option bool) : bool := match o with Some true => true | _ => false end.
Definition is_false (o : option bool) : bool := match o with Some false => true | _ => false end.

(** [arg.to_comoving() if cm[0] and not cm[1] else arg], _array_functions.py 940-944
    (and 951-954 with [to_physical]): the guard is the same in both branches. *)
Definition coerce (conv : carr -> res carr) (o : operand) : res operand :=
  match o with
  | OPlain v => Ok (OPlain v)
  | OArr x => if is_true (acm x) then Ok o else do y <- conv x; Ok (OArr y)
  end.

(** [_prepare_array_func_args], _array_functions.py 886-976. *)
Definition prepare (default_cm : bool) (args : list operand) : res prep :=
  let cms := map snd (filter fst (map op_cm args)) in
  let ret_vt := forallb op_vt args in
  let ret_comp :=
    match map op_comp args with
    | [] => CNone
    | c :: cs => if forallb (comp_eqb c) cs then c else CNone
    end in
  let done := fun args' cm => Ok (mkprep args' (map op_cf args) cm ret_vt ret_comp) in
  match cms with
  | [] => done args None
  | _ =>
      if forallb is_true cms then done args (Some true)
      else if forallb is_none cms then done args None
      else if existsb is_none cms then Err ValueError
      else if forallb is_false cms then done args (Some false)
      else
        let dcm := default_cm
                   && negb (existsb (fun o => match o with
                                              | OArr x => negb (avt x)
                                              | OPlain _ => false end) args) in
        if dcm
        then do args' <- all_ok (map (coerce to_comoving) args); done args' (Some true)
        else do args' <- all_ok (map (coerce to_physical) args); done args' (Some false)
  end.

(** * Handlers of the scale-factor labels, _array_functions.py 308-843 *)

(** [__binary_preserve_cosmo_factor], 420-475. *)
Definition h_preserve2 (x y : option cf) : res (option cf) :=
  match x, y with
  | None, None => Ok None
  | Some c, None => Ok (Some c)
  | None, Some c => Ok (Some c)
  | Some c, Some d => if negb (cf_eq c d) then Err ValueError else Ok (Some c)
  end.

(** [__binary_multiply_cosmo_factor], 355-391. *)
Definition h_multiply2 (x y : option cf) : res (option cf) :=
  match x, y with
  | None, None => Ok None
  | None, Some c => Ok (Some c)
  | Some c, None => Ok (Some c)
  | Some c, Some d => do r <- cf_mul c d; Ok (Some r)
  end.

(** [functools.reduce(f, cfs)]: an empty argument list is a type error. *)
Fixpoint reduce_from (f : option cf -> option cf -> res (option cf))
         (acc : option cf) (l : list (option cf)) : res (option cf) :=
  match l with
  | [] => Ok acc
  | x :: xs => do r <- f acc x; reduce_from f r xs
  end.
Definition reduce (f : option cf -> option cf -> res (option cf)) (l : list (option cf)) :=
  match l with [] => Err TypeError | x :: xs => reduce_from f x xs end.

(** [_preserve_cosmo_factor] 394-417 and [_multiply_cosmo_factor] 330-352. *)
Definition h_preserve (cfs : list (option cf)) : res (option cf) := reduce h_preserve2 cfs.
Definition h_multiply (cfs : list (option cf)) : res (option cf) := reduce h_multiply2 cfs.

(** [_power_cosmo_factor], 478-529, for a dimensionless number [p]; [c2] is the
    label of the exponent argument. *)
Definition h_power (c1 c2 : option cf) (p : R) : res (option cf) :=
  let bad := match c2 with
             | None => false
             | Some d => match a_factor d with None => false | Some u => negb (Reqb u 1) end
             end in
  if bad then Err ValueError
  else match c1 with None => Ok None | Some c => Ok (Some (cf_pow c p)) end.

(** [_sqrt_cosmo_factor] 308-327, [_square_cosmo_factor] 532-551,
    [_cbrt_cosmo_factor] 554-573, [_reciprocal_cosmo_factor] 601-620. *)
Definition h_sqrt (c : option cf) := h_power c None (/ 2).
Definition h_square (c : option cf) := h_power c None 2.
Definition h_cbrt (c : option cf) := h_power c None (/ 3).
Definition h_reciprocal (c : option cf) := h_power c None (- 1).

(** [_divide_cosmo_factor], 576-598. *)
Definition h_divide (c1 c2 : option cf) : res (option cf) :=
  do r <- h_reciprocal c2; h_multiply2 c1 r.

(** [_passthrough_cosmo_factor], 623-662.  [None != cosmo_factor] raises the
    [ValueError] of [cosmo_factor.__eq__]. *)
Definition h_passthrough1 (c : option cf) : res (option cf) := Ok c.
Definition h_passthrough2 (c1 c2 : option cf) : res (option cf) :=
  match c1, c2 with
  | _, None => Ok c1
  | None, Some _ => Err ValueError
  | Some c, Some d => if negb (cf_eq c d) then Err ValueError else Ok c1
  end.

(** [_return_without_cosmo_factor] 665-740 for two arguments, as used by
    [_comparison_cosmo_factor] 793-843 (warnings are not modelled). *)
Definition h_compare (c1 c2 : option cf) : res (option cf) :=
  match c1, c2 with
  | Some c, Some d => if negb (cf_eq c d) then Err ValueError else Ok None
  | _, _ => Ok None
  end.

(** * Operations *)

(** numpy's [power] on numbers: [x ** p] for a positive base or an integer power
    (other combinations are nan or inf in numpy, here 0). *)
Definition npow (x p : R) : R :=
  if Rlt_dec 0 x then Rpower x p
  else if Req_EM_T x 0 then (if Req_EM_T p 0 then 1 else 0)
  else let z := (up p - 1)%Z in
       if Req_EM_T p (IZR z) then powerRZ x z else 0.

Definition ncbrt (x : R) : R :=
  if Rlt_dec 0 x then Rpower x (/ 3)
  else if Rlt_dec x 0 then - Rpower (- x) (/ 3) else 0.

(** Broadcasting of two flat arrays. *)
Fixpoint map2 {A B C} (f : A -> B -> C) (xs : list A) (ys : list B) : list C :=
  match xs, ys with
  | x :: xs', y :: ys' => f x y :: map2 f xs' ys'
  | _, _ => []
  end.
Definition broadcast {C} (f : R -> R -> C) (xs ys : list R) : res (list C) :=
  if Nat.eqb (length xs) (length ys) then Ok (map2 f xs ys)
  else match xs, ys with
       | [x], _ => Ok (map (f x) ys)
       | _, [y] => Ok (map (fun x => f x y) xs)
       | _, _ => Err ValueError
       end.

(** Two-argument and one-argument ufuncs of the registry, objects.py 982-1071, with
    their label handlers. *)
Inductive bop := Badd | Bsub | Bmul | Bdiv | Bmax | Bmin.
Inductive uop := Uneg | Uabs | Usqrt | Usquare | Ucbrt | Urecip.
Inductive cop := Clt | Cle | Cgt | Cge | Ceq | Cne.

Definition bfun (o : bop) (x y : R) : R :=
  match o with
  | Badd => x + y | Bsub => x - y | Bmul => x * y | Bdiv => x / y
  | Bmax => Rmax x y | Bmin => Rmin x y
  end.
Definition ufun (o : uop) (x : R) : R :=
  match o with
  | Uneg => - x | Uabs => Rabs x | Usqrt => sqrt x | Usquare => x * x
  | Ucbrt => ncbrt x | Urecip => / x
  end.
Definition cfun (o : cop) (x y : R) : bool :=
  match o with
  | Clt => Rltb x y | Cle => Rleb x y | Cgt => Rltb y x | Cge => Rleb y x
  | Ceq => Reqb x y | Cne => negb (Reqb x y)
  end.

Definition bhandler (o : bop) (c1 c2 : option cf) : res (option cf) :=
  match o with
  | Badd | Bsub => h_preserve [c1; c2]
  | Bmul => h_multiply [c1; c2]
  | Bdiv => h_divide c1 c2
  | Bmax | Bmin => h_passthrough2 c1 c2
  end.
Definition uhandler (o : uop) (c : option cf) : res (option cf) :=
  match o with
  | Uneg | Uabs => h_passthrough1 c
  | Usqrt => h_sqrt c | Usquare => h_square c | Ucbrt => h_cbrt c
  | Urecip => h_reciprocal c
  end.

(** [cosmo_array.__array_ufunc__], objects.py 2152-2244, for a two-argument ufunc
    with value function [f] and label handler [h], result a cosmo array. *)
Definition ufunc2 (f : R -> R -> R) (h : option cf -> option cf -> res (option cf))
           (x y : operand) : res carr :=
  do p <- prepare true [x; y];
  do rcf <- h (op_cf x) (op_cf y);
  match p_args p with
  | [x'; y'] =>
      do v <- broadcast f (op_vals x') (op_vals y');
      Ok (mkarr v rcf (p_cm p) (p_vt p) (p_comp p))
  | _ => Err TypeError
  end.

Definition ufunc1 (f : R -> R) (h : option cf -> res (option cf)) (x : operand) : res carr :=
  do p <- prepare true [x];
  do rcf <- h (op_cf x);
  match p_args p with
  | [x'] => Ok (mkarr (map f (op_vals x')) rcf (p_cm p) (p_vt p) (p_comp p))
  | _ => Err TypeError
  end.

(** Comparisons give a plain boolean array. *)
Definition ufunc_cmp (f : R -> R -> bool) (x y : operand) : res (list bool) :=
  do p <- prepare true [x; y];
  do _ <- h_compare (op_cf x) (op_cf y);
  match p_args p with
  | [x'; y'] => broadcast f (op_vals x') (op_vals y')
  | _ => Err TypeError
  end.

Definition binop (o : bop) := ufunc2 (bfun o) (bhandler o).
Definition unop (o : uop) := ufunc1 (ufun o) (uhandler o).
Definition cmpop (o : cop) := ufunc_cmp (cfun o).

(** [x ** y] for a one-element exponent [y] (unyt rejects longer exponents for
    arrays with units).  Its value is read from the argument as given
    ([inputs[1]], line 515), the numbers raised are the coerced ones. *)
Definition powop (x y : operand) : res carr :=
  match op_vals y with
  | [p] => ufunc2 npow (fun c1 c2 => h_power c1 c2 p) x y
  | _ => Err ValueError
  end.

(** [multiply.reduce] over a whole flat array ([np.prod]), objects.py 2190-2200:
    the label is raised to the number of elements. *)
Definition prodR (l : list R) : R := fold_right Rmult 1 l.
Definition prodop (x : operand) : res carr :=
  do p <- prepare true [x];
  do rcf <- h_power (op_cf x) None (INR (length (op_vals x)));
  match p_args p with
  | [x'] => Ok (mkarr [prodR (op_vals x')] rcf (p_cm p) (p_vt p) (p_comp p))
  | _ => Err TypeError
  end.

(** [add.reduce] ([np.sum]). *)
Definition sumR (l : list R) : R := fold_right Rplus 0 l.
Definition sumop (x : operand) : res carr :=
  do p <- prepare true [x];
  do rcf <- h_preserve [op_cf x];
  match p_args p with
  | [x'] => Ok (mkarr [sumR (op_vals x')] rcf (p_cm p) (p_vt p) (p_comp p))
  | _ => Err TypeError
  end.

(** * Nested expressions *)
Inductive expr :=
| EArr (x : carr)
| ENum (v : R)
| EBin (o : bop) (e1 e2 : expr)
| EUn (o : uop) (e : expr)
| EPow (e : expr) (p : R)
| ESum (e : expr)
| EProd (e : expr).

(** Plain numbers combined with plain numbers are plain numpy arithmetic. *)
Definition plain2 (f : R -> R -> R) (v w : list R) : res operand :=
  do r <- broadcast f v w; Ok (OPlain r).

Definition lift2 (f : R -> R -> R) (g : operand -> operand -> res carr) (x y : operand) : res operand :=
  match x, y with
  | OPlain v, OPlain w => plain2 f v w
  | _, _ => do r <- g x y; Ok (OArr r)
  end.
Definition lift1 (f : list R -> list R) (g : operand -> res carr) (x : operand) : res operand :=
  match x with
  | OPlain v => Ok (OPlain (f v))
  | _ => do r <- g x; Ok (OArr r)
  end.

Fixpoint eval (e : expr) : res operand :=
  match e with
  | EArr x => Ok (OArr x)
  | ENum v => Ok (OPlain [v])
  | EBin o e1 e2 =>
      do x <- eval e1; do y <- eval e2; lift2 (bfun o) (binop o) x y
  | EUn o e1 => do x <- eval e1; lift1 (map (ufun o)) (unop o) x
  | EPow e1 p => do x <- eval e1; lift2 npow powop x (OPlain [p])
  | ESum e1 => do x <- eval e1; lift1 (fun v => [sumR v]) sumop x
  | EProd e1 => do x <- eval e1; lift1 (fun v => [prodR v]) prodop x
  end.

(** * Histories over arrays that may share memory *)

(** An array object: the buffer it looks at, its attributes, and (for the proofs
    only) the objects it was made from. *)
Record obj := mkobj {
  o_buf : nat;
  o_cf : option cf;
  o_cm : option bool;
  o_vt : bool;
  o_comp : comp;
  o_from : list nat
}.
Record heap := mkheap { bufs : list (list R); objs : list obj }.

Definition buf_of (h : heap) (o : obj) : list R := nth (o_buf o) (bufs h) [].
Definition arr_of (h : heap) (o : obj) : carr :=
  mkarr (buf_of h o) (o_cf o) (o_cm o) (o_vt o) (o_comp o).

(** A new object with its own buffer. *)
Definition alloc (h : heap) (x : carr) (from : list nat) : heap :=
  mkheap (bufs h ++ [avals x])
         (objs h ++ [mkobj (length (bufs h)) (acf x) (acm x) (avt x) (acomp x) from]).

(** In-place change of object [i]: the buffer is overwritten (every array sharing it
    sees the new numbers), the attributes are those of [i] alone. *)
Definition inplace (h : heap) (i : nat) (o : obj) (x : carr) : heap :=
  mkheap (upd (o_buf o) (avals x) (bufs h))
         (upd i (mkobj (o_buf o) (acf x) (acm x) (avt x) (acomp x) (o_from o)) (objs h)).

(** Statements of a history.
    - [SView i]: [x[...]], [x.view()], [x.T]...: same memory, copied attributes.
    - [SCopy i]: [x.copy()], [x.astype()]...
    - [SConvC i], [SConvP i]: in-place conversions.
    - [SToC i], [SToP i], [STo i cm]: converting copies.
    - [SWrap i cm vt]: [cosmo_array(x, comoving=cm, valid_transform=vt)].
    - [SBin], [SUn], [SPow]: arithmetic. *)
Inductive stmt :=
| SView (i : nat) | SCopy (i : nat)
| SConvC (i : nat) | SConvP (i : nat)
| SToC (i : nat) | SToP (i : nat) | STo (i : nat) (cm : option bool)
| SWrap (i : nat) (cm : option bool) (vt : bool)
| SBin (o : bop) (i j : nat) | SUn (o : uop) (i : nat) | SPow (i : nat) (p : R).

Definition get (h : heap) (i : nat) : res obj :=
  match nth_error (objs h) i with Some o => Ok o | None => Err KeyError end.

(** [cosmo_array(input_array, ...)] for a cosmo array, objects.py 1163-1210: a view
    that is converted in place, then given [valid_transform] (default True). *)
Definition wrap (h : heap) (i : nat) (cm : option bool) (vt : bool) : heap * res unit :=
  match get h i with
  | Err e => (h, Err e)
  | Ok o =>
      let x := arr_of h o in
      let conv := match cm with
                  | None => Ok x
                  | Some true => convert_to_comoving x
                  | Some false => convert_to_physical x
                  end in
      match conv with
      | Err e => (h, Err e)
      | Ok y =>
          let h1 := mkheap (upd (o_buf o) (avals y) (bufs h)) (objs h) in
          match verify (acm y) vt with
          | Err e => (h1, Err e)
          | Ok _ =>
              (mkheap (bufs h1)
                      (objs h ++ [mkobj (o_buf o) (acf y) (acm y) vt (acomp y) [i]]),
               Ok tt)
          end
      end
  end.

Definition store (h : heap) (r : res carr) (from : list nat) : heap * res unit :=
  match r with
  | Ok x => (alloc h x from, Ok tt)
  | Err e => (h, Err e)
  end.

Definition convert (h : heap) (i : nat) (conv : carr -> res carr) : heap * res unit :=
  match get h i with
  | Err e => (h, Err e)
  | Ok o => match conv (arr_of h o) with
            | Err e => (h, Err e)
            | Ok x => (inplace h i o x, Ok tt)
            end
  end.

(** One statement: the heap afterwards and the exception, if any. *)
Definition step (h : heap) (s : stmt) : heap * res unit :=
  match s with
  | SView i =>
      match get h i with
      | Err e => (h, Err e)
      | Ok o => (mkheap (bufs h)
                        (objs h ++ [mkobj (o_buf o) (o_cf o) (o_cm o) (o_vt o) (o_comp o) [i]]),
                 Ok tt)
      end
  | SCopy i => store h (do o <- get h i; Ok (arr_of h o)) [i]
  | SConvC i => convert h i convert_to_comoving
  | SConvP i => convert h i convert_to_physical
  | SToC i => store h (do o <- get h i; to_comoving (arr_of h o)) [i]
  | SToP i => store h (do o <- get h i; to_physical (arr_of h o)) [i]
  | STo i cm => store h (do o <- get h i; to_cm cm (arr_of h o)) [i]
  | SWrap i cm vt => wrap h i cm vt
  | SBin o i j =>
      store h (do x <- get h i; do y <- get h j;
               binop o (OArr (arr_of h x)) (OArr (arr_of h y))) [i; j]
  | SUn o i => store h (do x <- get h i; unop o (OArr (arr_of h x))) [i]
  | SPow i p => store h (do x <- get h i; powop (OArr (arr_of h x)) (OPlain [p])) [i]
  end.

(** A history: exceptions are caught by the caller and the session continues. *)
Fixpoint run (h : heap) (l : list stmt) : heap :=
  match l with [] => h | s :: t => run (fst (step h s)) t end.

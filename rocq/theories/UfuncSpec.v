(** Specification vocabulary for ufuncs: which function has which rule, every outcome of
    every rule, and what it means that a result is right. *)
From Coq Require Import String List ZArith Bool Reals.
From Verif Require Import Base CosmoModel CosmoSpec CosmoExactSpec FuncModel FuncSpec UfuncModel.
Import ListNotations.
Open Scope R_scope.
Local Open Scope string_scope.

(** * The table *)
Definition names_of (h : handler) : list string :=
  match h with
  | HPreserve => ["add"; "subtract"; "remainder"; "fmod"; "hypot"; "fmax"; "fmin"; "nextafter";
                  "heaviside"; "_ones_like"]
  | HMultiply => ["multiply"; "matmul"; "vecdot"]
  | HDivide => ["divide"; "floor_divide"]
  | HPower => ["power"]
  | HSqrt => ["sqrt"] | HSquare => ["square"] | HCbrt => ["cbrt"] | HReciprocal => ["reciprocal"]
  | HPassthrough => ["negative"; "absolute"; "fabs"; "conjugate"; "positive"; "maximum"; "minimum";
                     "copysign"; "modf"; "divmod"; "floor"; "ceil"; "trunc"; "spacing"; "clip"]
  | HWithout => ["exp"; "exp2"; "expm1"; "log"; "log2"; "log10"; "log1p"; "logaddexp"; "logaddexp2";
                 "sin"; "cos"; "tan"; "sinh"; "cosh"; "tanh"; "arcsin"; "arccos"; "arctan";
                 "arcsinh"; "arccosh"; "arctanh"; "deg2rad"; "rad2deg"; "rint"; "sign"; "signbit";
                 "frexp"; "logical_not"; "isreal"; "iscomplex"; "isfinite"; "isinf"; "isnan"; "isnat"]
  | HCompare => ["greater"; "greater_equal"; "less"; "less_equal"; "equal"; "not_equal";
                 "logical_and"; "logical_or"; "logical_xor"]
  | HArctan2 => ["arctan2"]
  end.

(** * Every outcome of every rule *)
Definition label_in (a : uarg) : option cf := match a with UArr x => acf x | _ => None end.
Definition values_in (a : uarg) : list R :=
  match a with UArr x => avals x | UNum v | UList v => v | UFalse => [0] end.

(** The numbers of arguments a rule takes. *)
Definition takes (h : handler) (n : nat) : Prop :=
  match h with
  | HPreserve | HMultiply => (1 <= n)%nat
  | HDivide | HPower | HCompare | HArctan2 => n = 2%nat
  | HSqrt | HSquare | HCbrt | HReciprocal => n = 1%nat
  | HPassthrough => n = 1%nat \/ n = 2%nat
  | HWithout => n = 1%nat \/ n = 2%nat \/ n = 3%nat
  end.

(** Labels that are compared and dropped: [silent] suppresses the warning. *)
Inductive dropped (silent : Prop) : option cf -> option cf -> res lw -> Prop :=
| dr_none : dropped silent None None (Ok (None, []))
| dr_left : forall c, ~ silent -> dropped silent (Some c) None (Ok (None, [c]))
| dr_right : forall c, ~ silent -> dropped silent None (Some c) (Ok (None, [c]))
| dr_left_silent : forall c, silent -> dropped silent (Some c) None (Ok (None, []))
| dr_right_silent : forall c, silent -> dropped silent None (Some c) (Ok (None, []))
| dr_alike : forall c d, alike c d -> dropped silent (Some c) (Some d) (Ok (None, []))
| dr_differ : forall c d, ~ alike c d -> dropped silent (Some c) (Some d) (Err ValueError).

Definition a_list (a : uarg) : Prop := exists v, a = UList v.
(** Zeros, other than the constant [False]. *)
Definition all_zero (a : uarg) : Prop := a <> UFalse /\ forall v, In v (values_in a) -> v = 0.

(** Labels that are kept: the first there is; a warning names it when it meets an
    argument without one. *)
Definition blanks (l : list (option cf)) : nat :=
  length (filter (fun c => match c with None => true | Some _ => false end) l).
Inductive kept : list (option cf) -> res lw -> Prop :=
| kp_none : forall n, kept (repeat None (S n)) (Ok (None, []))
| kp_some : forall n c t, (forall d, In (Some d) t -> alike c d) ->
    kept (repeat None n ++ Some c :: t) (Ok (Some c, repeat c (Nat.min n 1 + blanks t)))
| kp_differ : forall n c t d, In (Some d) t -> ~ alike c d ->
    kept (repeat None n ++ Some c :: t) (Err ValueError).

(** A rule without warnings. *)
Definition no_warning (r : res (option cf)) : res lw :=
  match r with Ok c => Ok (c, []) | Err e => Err e end.

Inductive said : handler -> list uarg -> res lw -> Prop :=
| sd_number : forall h i, ~ takes h (length i) -> said h i (Err TypeError)
| sd_kept : forall i r, kept (map label_in i) r -> said HPreserve i r
| sd_one : forall x, said HMultiply [x] (Ok (label_in x, []))
| sd_product : forall x y r, label_of Bmul (label_in x) (label_in y) r ->
    said HMultiply [x; y] (no_warning r)
| sd_quotient : forall x y r, label_of Bdiv (label_in x) (label_in y) r ->
    said HDivide [x; y] (no_warning r)
| sd_power : forall x y p r, values_in y = [p] -> power_label p (label_in x) (label_in y) r ->
    said HPower [x; y] (no_warning r)
| sd_powers : forall x y, length (values_in y) <> 1%nat -> said HPower [x; y] (Err ValueError)
| sd_sqrt : forall x r, power_label (1 / 2) (label_in x) None r -> said HSqrt [x] (no_warning r)
| sd_square : forall x r, power_label 2 (label_in x) None r -> said HSquare [x] (no_warning r)
| sd_cbrt : forall x r, power_label (1 / 3) (label_in x) None r -> said HCbrt [x] (no_warning r)
| sd_recip : forall x r, power_label (- 1) (label_in x) None r -> said HReciprocal [x] (no_warning r)
| sd_pass1 : forall x, said HPassthrough [x] (Ok (label_in x, []))
| sd_pass2 : forall x y r, label_of Bmax (label_in x) (label_in y) r ->
    said HPassthrough [x; y] (no_warning r)
| sd_drop1 : forall x, said HWithout [x] (Ok (None, []))
| sd_drop2 : forall x y r, dropped False (label_in x) (label_in y) r -> said HWithout [x; y] r
| sd_drop3 : forall x y z r, dropped (label_in z <> None) (label_in x) (label_in y) r ->
    said HWithout [x; y; z] r
| sd_compare_list : forall x y, a_list x \/ a_list y -> said HCompare [x; y] (Err AttributeError)
| sd_compare : forall x y r, ~ a_list x -> ~ a_list y ->
    dropped (all_zero x \/ all_zero y) (label_in x) (label_in y) r -> said HCompare [x; y] r
| sd_arctan2_none : forall x y, label_in x = None -> label_in y = None ->
    said HArctan2 [x; y] (Ok (None, []))
| sd_arctan2_left : forall x y c, label_in x = Some c -> label_in y = None ->
    said HArctan2 [x; y] (Ok (Some (mkcf (Some 0) (cscale c)), [c]))
| sd_arctan2_right : forall x y c, label_in x = None -> label_in y = Some c ->
    said HArctan2 [x; y] (Ok (Some (mkcf (Some 0) (cscale c)), [c]))
| sd_arctan2 : forall x y c d, label_in x = Some c -> label_in y = Some d -> alike c d ->
    said HArctan2 [x; y] (Ok (Some (mkcf (Some 0) (cscale c)), []))
| sd_arctan2_differ : forall x y c d, label_in x = Some c -> label_in y = Some d -> ~ alike c d ->
    said HArctan2 [x; y] (Err ValueError).

(** The number of elements that a reduction is taken to combine. *)
Inductive counted (shape : list Z) : axis -> res Z -> Prop :=
| ct_all : forall ax, ax = AxMissing \/ ax = AxNone -> counted shape ax (Ok (fold_right Z.mul 1%Z shape))
| ct_front : forall i n, nth_error shape i = Some n -> counted shape (AxInt (Z.of_nat i)) (Ok n)
| ct_back : forall i n, (i < length shape)%nat -> nth_error shape (length shape - 1 - i) = Some n ->
    counted shape (AxInt (- Z.of_nat i - 1)) (Ok n)
| ct_range : forall z, (z < - Z.of_nat (length shape) \/ Z.of_nat (length shape) <= z)%Z ->
    counted shape (AxInt z) (Err IndexError)
| ct_tuple : forall l, counted shape (AxTuple l) (Err TypeError).

(** The label of a ufunc. *)
Inductive labelled : string -> method -> list uarg -> res lw -> Prop :=
| lb_call : forall u h i r, In u (names_of h) -> said h i r -> labelled u MCall i r
| lb_unknown : forall u m i, (forall h, ~ In u (names_of h)) -> i <> [] -> labelled u m i (Err KeyError)
| lb_unknown_call : forall u i, (forall h, ~ In u (names_of h)) -> labelled u MCall i (Err KeyError)
| lb_empty : forall u shape ax, labelled u (MReduce shape ax) [] (Err IndexError)
| lb_multiply : forall shape ax x i n r, counted shape ax (Ok n) ->
    power_label (IZR n) (label_in x) None r ->
    labelled "multiply" (MReduce shape ax) (x :: i) (no_warning r)
| lb_divide : forall shape ax x i n r, counted shape ax (Ok n) ->
    power_label (IZR (2 - n)) (label_in x) None r ->
    labelled "divide" (MReduce shape ax) (x :: i) (no_warning r)
| lb_axis : forall u shape ax x i e, In u ["multiply"; "divide"] -> counted shape ax (Err e) ->
    labelled u (MReduce shape ax) (x :: i) (Err e)
| lb_logical : forall u shape ax x i, In u ["logical_and"; "logical_or"; "logical_xor"; "logical_not"] ->
    labelled u (MReduce shape ax) (x :: i) (Ok (None, []))
| lb_reduce : forall u h shape ax x i r,
    ~ In u ["multiply"; "divide"; "logical_and"; "logical_or"; "logical_xor"; "logical_not"] ->
    In u (names_of h) -> said h (x :: i) r -> labelled u (MReduce shape ax) (x :: i) r.

(** * When results are right *)

(** A ufunc's numbers scale with exponent [e] if its arguments scale with the given ones. *)
Definition mscale (c : R) (r : res (list (list R))) : res (list (list R)) :=
  match r with Ok vs => Ok (map (scale c) vs) | Err e => Err e end.
Definition scales (f : mfun) (aks kks : list R) (e : R) : Prop :=
  forall t avs kvs, 0 < t -> length avs = length aks -> length kvs = length kks ->
  f (wscale t aks avs) (wscale t kks kvs) = mscale (Rpower t e) (f avs kvs).

(** The exponent of a result: [lawful_call u m aks e]. *)
Inductive lawful_call : string -> method -> list R -> R -> Prop :=
| lc_same1 : forall u m k, In u ["add"; "subtract"; "remainder"; "fmod"; "hypot"; "fmax"; "fmin";
      "nextafter"; "heaviside"; "_ones_like"; "negative"; "absolute"; "fabs"; "conjugate"; "positive";
      "maximum"; "minimum"; "copysign"; "modf"; "divmod"; "floor"; "ceil"; "trunc"; "spacing"; "clip"] ->
    lawful_call u m [k] k
| lc_same2 : forall u k, In u ["add"; "subtract"; "remainder"; "fmod"; "hypot"; "fmax"; "fmin";
      "nextafter"; "heaviside"; "maximum"; "minimum"; "copysign"; "divmod"] ->
    lawful_call u MCall [k; k] k
| lc_product : forall u j k, In u ["multiply"; "matmul"; "vecdot"] -> lawful_call u MCall [j; k] (j + k)
| lc_quotient : forall u j k, In u ["divide"; "floor_divide"] -> lawful_call u MCall [j; k] (j - k)
| lc_sqrt : forall k, lawful_call "sqrt" MCall [k] (k / 2)
| lc_square : forall k, lawful_call "square" MCall [k] (2 * k)
| lc_cbrt : forall k, lawful_call "cbrt" MCall [k] (k / 3)
| lc_recip : forall k, lawful_call "reciprocal" MCall [k] (- k)
| lc_arctan2 : forall k, lawful_call "arctan2" MCall [k; k] 0
| lc_multiply : forall shape ax n k, counted shape ax (Ok n) ->
    lawful_call "multiply" (MReduce shape ax) [k] (k * IZR n)
| lc_divide : forall shape ax n k, counted shape ax (Ok n) ->
    lawful_call "divide" (MReduce shape ax) [k] (k * IZR (2 - n)).

(** Results that stand for the values [vs]. *)
Definition right (s e : R) (o : operand) (w : list R) : Prop :=
  match o with OArr x => good s e x /\ phys x = w | OPlain _ => False end.
Definition all_right (s e : R) (r : res uresult) (v : res (list (list R))) : Prop :=
  match r, v with
  | Ok x, Ok ws => Forall2 (right s e) (r_values x) ws
  | Err a, Err b => a = b
  | _, _ => False
  end.

(** Functions applied element by element. *)
Definition each1 (g : R -> R) : mfun :=
  fun vs _ => match vs with [v] => Ok [map g v] | _ => Err TypeError end.
Definition each2 (g : R -> R -> R) : mfun :=
  fun vs _ => match vs with
              | [v; w] => match broadcast g v w with Ok r => Ok [r] | Err e => Err e end
              | _ => Err TypeError
              end.
(** [modf], [divmod]: two results. *)
Definition both1 (g h : R -> R) : mfun :=
  fun vs _ => match vs with [v] => Ok [map g v; map h v] | _ => Err TypeError end.
Definition both2 (g h : R -> R -> R) : mfun :=
  fun vs _ => match vs with
              | [v; w] => match broadcast g v w, broadcast h v w with
                          | Ok r, Ok q => Ok [r; q] | Err e, _ => Err e | _, Err e => Err e end
              | _ => Err TypeError
              end.

(** numpy's elementary functions on the reals. *)
Definition n_floor (x : R) : R := IZR (Int_part x).
Definition n_ceil (x : R) : R := - n_floor (- x).
Definition n_trunc (x : R) : R := if Rlt_dec x 0 then n_ceil x else n_floor x.
Definition n_frac (x : R) : R := x - n_trunc x.
Definition n_floordiv (x y : R) : R := if Req_EM_T y 0 then 0 else n_floor (x / y).
Definition n_remainder (x y : R) : R := x - y * n_floordiv x y.
Definition n_fmod (x y : R) : R := if Req_EM_T y 0 then x else x - y * n_trunc (x / y).
Definition n_hypot (x y : R) : R := sqrt (x * x + y * y).
Definition n_sign (x : R) : R := if Rlt_dec x 0 then - 1 else if Rlt_dec 0 x then 1 else 0.
Definition n_copysign (x y : R) : R := if Rlt_dec y 0 then - Rabs x else Rabs x.
Definition n_heaviside (x y : R) : R := if Rlt_dec x 0 then 0 else if Rlt_dec 0 x then 1 else y.
Definition n_sq (x : R) : R := x * x.

(** Columns of an array of [w] columns, and reductions along them. *)
Definition column (w : nat) (v : list R) (j : nat) : list R :=
  flat_map (fun i => match nth_error v (i * w + j) with Some x => [x] | None => [] end)
           (seq 0 (Nat.div (length v) w)).
Definition product_down (w : nat) (v : list R) : list R :=
  map (fun j => fold_right Rmult 1 (column w v j)) (seq 0 w).
Definition quotient_list (l : list R) : R :=
  match l with [] => 1 | x :: t => fold_left Rdiv t x end.
Definition quotient_down (w : nat) (v : list R) : list R :=
  map (fun j => quotient_list (column w v j)) (seq 0 w).

(** Results that are right whatever the arrays: [g] on the physical values. *)
Definition right_one (u : string) (g : R -> R) : Prop :=
  forall s k x, 0 < s -> good s k x ->
  all_right s k (snd (array_ufunc (each1 g) u MCall [UArr x] [] None)) (Ok [map g (phys x)]).
Definition right_alike (u : string) (g : R -> R -> R) : Prop :=
  forall s k x y, 0 < s -> good s k x -> good s k y ->
  all_right s k (snd (array_ufunc (each2 g) u MCall [UArr x; UArr y] [] None)) (each2 g [phys x; phys y] []).
Definition right_product (u : string) (g : R -> R -> R) : Prop :=
  forall s j k x y, 0 < s -> good s j x -> good s k y ->
  all_right s (j + k) (snd (array_ufunc (each2 g) u MCall [UArr x; UArr y] [] None)) (each2 g [phys x; phys y] []).
Definition right_quotient (u : string) (g : R -> R -> R) : Prop :=
  forall s j k x y, 0 < s -> good s j x -> good s k y ->
  all_right s (j - k) (snd (array_ufunc (each2 g) u MCall [UArr x; UArr y] [] None)) (each2 g [phys x; phys y] []).
(** Results without label: plain numbers computed from the physical values. *)
Definition right_plain (u : string) (g : R -> R) : Prop :=
  forall s k x, 0 < s -> good s k x ->
  snd (array_ufunc (each1 g) u MCall [UArr x] [] None) = Ok (mkures [OPlain (map g (phys x))] []).

(** Reductions of an array of [h] rows and [w] columns along its columns. *)
Definition down_of (g : nat -> list R -> list R) (h w : nat) : mfun :=
  fun vs _ => match vs with
              | [v] => if Nat.eqb (length v) (h * w) then Ok [g w v] else Err ValueError
              | _ => Err TypeError
              end.

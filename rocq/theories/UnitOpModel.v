(** Model of cosmo arrays with units in arithmetic, comparisons and the constraints of [SWIFTMask].

    CosmoModel.v and RegionModel.v have the same functions for arrays in one unit.  What unyt does with units is external and
    written down here: operands of sums and comparisons are brought to the unit of the first, an operand of zeros fits any unit,
    products and powers multiply and raise the units.  A unit is its size and its dimensions; [dims], [dmul] and [dpow] are
    arbitrary.  Offsets (temperatures in degrees) and logarithmic units are left out. *)
From Coq Require Import List ZArith QArith Bool Reals.
From Verif Require Import Base MaskModel CosmoModel CtorModel RegionModel.
Import ListNotations.
Open Scope R_scope.

Section Units.
Variable D : Type.
Variable deqb : D -> D -> bool.
Variable done : D.                  (* without dimensions *)
Variable dmul : D -> D -> D.
Variable dpow : D -> R -> D.

Record unt := mkunt { size : R; dims : D }.

(** An array with its unit, and what may be an operand. *)
Record qarr := mkq { q_unit : unt; q_arr : carr }.
Inductive qop := QArr (x : qarr) | QPlain (v : list R).

Definition strip (o : qop) : operand := match o with QArr x => OArr (q_arr x) | QPlain v => OPlain v end.
Definition unit_of (o : qop) : unt := match o with QArr x => q_unit x | QPlain _ => mkunt 1 done end.

Definition zeros (v : list R) : bool := forallb (fun x => Reqb x 0) v.

(** unyt's treatment of the operands of sums, maxima and comparisons: the numbers and the unit of the result. *)
Definition align (u : unt) (v : list R) (u' : unt) (v' : list R) : res (list R * list R * unt) :=
  if zeros v then Ok (v, v', u')
  else if zeros v' then Ok (v, v', u)
  else if deqb (dims u) (dims u') then Ok (v, map (fun x => size u' / size u * x) v', u)
  else Err InvalidUnit.

(** The numbers as they are combined and the unit of the result, for a two-argument ufunc. *)
Definition combine_units (o : bop) (u : unt) (v : list R) (u' : unt) (v' : list R) : res (list R * list R * unt) :=
  match o with
  | Bmul => Ok (v, v', mkunt (size u * size u') (dmul (dims u) (dims u')))
  | Bdiv => Ok (v, v', mkunt (size u / size u') (dmul (dims u) (dpow (dims u') (- 1))))
  | _ => align u v u' v'
  end.

(** objects.py 1978-2130: [__unyt_ufunc_prepare__], unyt's ufunc, [__unyt_ufunc_finalize__]. *)
Definition q_binop (o : bop) (x y : qop) : res qarr :=
  do p <- prepare true [strip x; strip y];
  match p_args p with
  | [x'; y'] =>
      do a <- combine_units o (unit_of x) (op_vals x') (unit_of y) (op_vals y');
      do rcf <- bhandler o (op_cf (strip x)) (op_cf (strip y));
      do v <- broadcast (bfun o) (fst (fst a)) (snd (fst a));
      Ok (mkq (snd a) (mkarr v rcf (p_cm p) (p_vt p) (p_comp p)))
  | _ => Err TypeError
  end.

Definition unit1 (o : uop) (u : unt) : unt :=
  match o with
  | Uneg | Uabs => u
  | Usqrt => mkunt (sqrt (size u)) (dpow (dims u) (/ 2))
  | Usquare => mkunt (size u * size u) (dmul (dims u) (dims u))
  | Ucbrt => mkunt (ncbrt (size u)) (dpow (dims u) (/ 3))
  | Urecip => mkunt (/ size u) (dpow (dims u) (- 1))
  end.

Definition q_unop (o : uop) (x : qop) : res qarr := do r <- unop o (strip x); Ok (mkq (unit1 o (unit_of x)) r).
Definition q_power (x : qop) (p : R) : res qarr :=
  do r <- powop (strip x) (OPlain [p]); Ok (mkq (mkunt (Rpower (size (unit_of x)) p) (dpow (dims (unit_of x)) p)) r).
Definition q_sum (x : qop) : res qarr := do r <- sumop (strip x); Ok (mkq (unit_of x) r).
Definition q_prod (x : qop) : res qarr :=
  let n := length (op_vals (strip x)) in
  do r <- prodop (strip x); Ok (mkq (mkunt (size (unit_of x) ^ n) (dpow (dims (unit_of x)) (INR n))) r).

(** Comparisons of arrays with units. *)
Definition q_cmp (o : cop) (x y : qarr) : res (list bool) :=
  do p <- prepare true [OArr (q_arr x); OArr (q_arr y)];
  match p_args p with
  | [x'; y'] =>
      do a <- align (q_unit x) (op_vals x') (q_unit y) (op_vals y');
      do _ <- h_compare (acf (q_arr x)) (acf (q_arr y));
      broadcast (cfun o) (fst (fst a)) (snd (fst a))
  | _ => Err TypeError
  end.

(** Nested expressions. *)
Inductive qexpr :=
| QEArr (x : qarr)
| QENum (v : R)
| QEBin (o : bop) (e1 e2 : qexpr)
| QEUn (o : uop) (e : qexpr)
| QEPow (e : qexpr) (p : R)
| QESum (e : qexpr)
| QEProd (e : qexpr).

Definition q_lift2 (f : R -> R -> R) (g : qop -> qop -> res qarr) (x y : qop) : res qop :=
  match x, y with
  | QPlain v, QPlain w => do r <- broadcast f v w; Ok (QPlain r)
  | _, _ => do r <- g x y; Ok (QArr r)
  end.
Definition q_lift1 (f : list R -> list R) (g : qop -> res qarr) (x : qop) : res qop :=
  match x with
  | QPlain v => Ok (QPlain (f v))
  | _ => do r <- g x; Ok (QArr r)
  end.

Fixpoint q_eval (e : qexpr) : res qop :=
  match e with
  | QEArr x => Ok (QArr x)
  | QENum v => Ok (QPlain [v])
  | QEBin o e1 e2 => do x <- q_eval e1; do y <- q_eval e2; q_lift2 (bfun o) (q_binop o) x y
  | QEUn o e1 => do x <- q_eval e1; q_lift1 (map (ufun o)) (q_unop o) x
  | QEPow e1 p => do x <- q_eval e1; match x with QPlain v => do r <- broadcast npow v [p]; Ok (QPlain r) | _ => do r <- q_power x p; Ok (QArr r) end
  | QESum e1 => do x <- q_eval e1; q_lift1 (fun v => [sumR v]) q_sum x
  | QEProd e1 => do x <- q_eval e1; q_lift1 (fun v => [prodR v]) q_prod x
  end.

(** * Lists of arrays *)

(** unyt's [_coerce_iterable_units]: everything in the unit of the first; no exception for zeros. *)
Fixpoint to_unit (u : unt) (l : list (unt * list R)) : res (list R) :=
  match l with
  | [] => Ok []
  | (u', v) :: rest =>
      if deqb (dims u) (dims u') then do r <- to_unit u rest; Ok (map (fun x => size u' / size u * x) v ++ r)
      else Err InvalidUnit
  end.

(** [cosmo_array(list)] without keyword arguments, objects.py 1224-1282; the labels are those of [from_list]. *)
Definition q_list (l : list qarr) : res qarr :=
  match l with
  | [] => Err ValueError
  | x :: _ =>
      do p <- prepare true (map (fun x => OArr (q_arr x)) l);
      do r <- array_of (InList (map (fun x => OArr (q_arr x)) l));
      do v <- to_unit (q_unit x) (combine (map q_unit l) (map op_vals (p_args p)));
      Ok (mkq (q_unit x) (mkarr v (acf r) (acm r) (avt r) (acomp r)))
  end.

(** * The region, masks.py:699-739 *)

Inductive qrow := QRowNone | QRowArray (x : qarr) | QRowList (l : list qarr).

Definition q_row_len (r : qrow) : option nat :=
  match r with
  | QRowNone => None
  | QRowArray x => Some (length (avals (q_arr x)))
  | QRowList l => Some (length l)
  end.

Definition q_sane_row (r : qrow) (b : qarr) : res qarr :=
  match r with
  | QRowNone => q_binop Bmul (QPlain [0; 1]) (QArr b)
  | QRowArray x => do y <- array_of (InCosmo (mku tt (q_arr x))); Ok (mkq (q_unit x) y)
  | QRowList l => q_list l
  end.

Record qkey := mkqkey { qk_min : axis -> qarr; qk_max : axis -> qarr }.
Record qmeta := mkqmeta { qm_box : axis -> qarr; qm_keys : list qkey }.

Definition q_sanitize (qm : qmeta) (region : list qrow) : res qarr :=
  match region with
  | [rx; ry; rz] =>
      if forallb (fun r => match q_row_len r with Some n => Nat.eqb n 2 | None => true end) region
      then
        do x <- q_sane_row rx (qm_box qm AX);
        do y <- q_sane_row ry (qm_box qm AY);
        do z <- q_sane_row rz (qm_box qm AZ);
        q_list [x; y; z]
      else Err ValueError
  | _ => Err ValueError
  end.

(** * Cell masks, masks.py:608-659 *)

Definition q_item (x : qarr) (i : nat) : res qarr := do y <- item (q_arr x) i; Ok (mkq (q_unit x) y).
Definition q_take (mask : list bool) (x : qarr) : qarr := mkq (q_unit x) (take_mask mask (q_arr x)).

Definition q_out (box lower upper : qarr) : res bool :=
  do neg <- q_unop Uneg (QArr box);
  do low <- q_binop Bdiv (QArr neg) (QPlain [2]);
  do three <- q_binop Bmul (QPlain [3]) (QArr box);
  do high <- q_binop Bdiv (QArr three) (QPlain [2]);
  do a <- truth (q_cmp Clt lower low);
  do b <- truth (q_cmp Clt upper low);
  do c <- truth (q_cmp Cgt lower high);
  do d <- truth (q_cmp Cgt upper high);
  Ok (a || b || c || d)%bool.

Definition q_interval (box lower upper : qarr) : res (option (qarr * qarr)) :=
  do diff <- q_binop Bsub (QArr upper) (QArr lower);
  do size <- q_unop Uabs (QArr diff);
  do whole <- truth (q_cmp Cgt size box);
  if whole then Ok None
  else
    do inverted <- truth (q_cmp Clt upper lower);
    if inverted then
      do half <- q_binop Bdiv (QArr box) (QPlain [2]);
      do a <- truth (q_cmp Cgt lower half);
      if a then do l <- q_binop Bsub (QArr lower) (QArr box); Ok (Some (l, upper))
      else
        do b <- truth (q_cmp Clt upper half);
        if b then do u <- q_binop Badd (QArr upper) (QArr box); Ok (Some (lower, u))
        else Ok (Some (lower, upper))
    else Ok (Some (lower, upper)).

Definition q_copy (box lower upper mn mx : qarr) (shift : Z) : res (list bool) :=
  do move <- q_binop Bmul (QPlain [IZR shift]) (QArr box);
  do top <- q_binop Badd (QArr mx) (QArr move);
  do above <- q_cmp Cgt top lower;
  do bottom <- q_binop Badd (QArr mn) (QArr move);
  do below <- q_cmp Clt bottom upper;
  Ok (map (fun ab => andb (fst ab) (snd ab)) (combine above below)).

Definition q_this (box lower upper : qarr) (a : axis) (k : qkey) (cell_mask : list bool) : res (list bool) :=
  let mn := q_take cell_mask (qk_min k a) in
  let mx := q_take cell_mask (qk_max k a) in
  do p <- q_copy box lower upper mn mx (-1);
  do q <- q_copy box lower upper mn mx 0;
  do r <- q_copy box lower upper mn mx 1;
  Ok (masked_assign cell_mask cell_mask (zip3 (fun x y z => (x || y || z)%bool) p q r)).

Fixpoint q_axes (qm : qmeta) (restrict : qarr) (todo : list (axis * nat)) (cell_mask : list (list bool)) : res (list (list bool)) :=
  match todo with
  | [] => Ok cell_mask
  | (a, i) :: rest =>
      do lower <- q_item restrict (2 * i);
      do upper <- q_item restrict (2 * i + 1);
      do out <- q_out (qm_box qm a) lower upper;
      if out then Err ValueError
      else
        do iv <- q_interval (qm_box qm a) lower upper;
        do cell_mask' <- match iv with
                         | None => Ok cell_mask
                         | Some (lo, up) =>
                             all_ok (map (fun km => q_this (qm_box qm a) lo up a (fst km) (snd km)) (combine (qm_keys qm) cell_mask))
                         end;
        q_axes qm restrict rest cell_mask'
  end.

Definition q_generate (qm : qmeta) (restrict : qarr) : res (list (list bool)) :=
  q_axes qm restrict [(AX, 0%nat); (AY, 1%nat); (AZ, 2%nat)]
         (map (fun k => repeat true (length (avals (q_arr (qk_min k AX))))) (qm_keys qm)).

(** masks.py:741-847 [constrain_spatial]. *)
Definition q_constrain_spatial (mm : mask_meta) (qm : qmeta) (region : list qrow) (union : bool) (st : mask_state) : outcome :=
  match q_sanitize qm region with
  | Err e => (st, Some e)
  | Ok restrict =>
      let finish cell_mask := (mk_mask_state (Some CSpatial) cell_mask (update_range_masks mm cell_mask (ms_masks st)), None) in
      match ms_constrained st, union with
      | Some CSpatial, true =>
          match q_generate qm restrict with
          | Err e => (st, Some e)
          | Ok new_mask =>
              finish (map (fun ab => map (fun xy => orb (fst xy) (snd xy)) (combine (fst ab) (snd ab)))
                          (combine (ms_cell_mask st) new_mask))
          end
      | None, _ =>
          match q_generate qm restrict with
          | Err e => (st, Some e)
          | Ok new_mask => finish new_mask
          end
      | _, _ => (st, Some RuntimeError)
      end
  end.

(** masks.py:475-556 [constrain_property]: the field is in [u]. *)
Definition q_constrain_property (mm : mask_meta) (key : nat) (values : option (list R)) (u : unt) (c : cf) (cm : bool)
           (lower upper : qarr) (st : mask_state) : outcome :=
  let m := convert_masks_to_bool mm (ms_masks st) in
  let st' := mk_mask_state (ms_constrained st) (ms_cell_mask st) m in
  match m, values with
  | InBools l, Some vals =>
      match nth_error l key with
      | None => (st', Some KeyError)
      | Some (current, size) =>
          match (do data <- new_array tt (fun _ _ => tt) (InNumbers (compress current vals))
                              (mkkw (Some tt) (Some c) None None (Some cm) true CNone false);
                 do above <- q_cmp Cgt (mkq u (u_arr data)) lower;
                 do below <- q_cmp Cle (mkq u (u_arr data)) upper;
                 Ok (map (fun ab => andb (fst ab) (snd ab)) (combine above below))) with
          | Err e => (st', Some e)
          | Ok new =>
              (mk_mask_state (Some CProperty) (ms_cell_mask st) (InBools (upd key (masked_assign current current new, size) l)), None)
          end
      end
  | _, _ => (st', Some KeyError)
  end.
End Units.

Arguments mkunt {D}. Arguments size {D}. Arguments dims {D}. Arguments mkq {D}. Arguments q_unit {D}. Arguments q_arr {D}.
Arguments QArr {D}. Arguments QPlain {D}. Arguments strip {D}. Arguments QEArr {D}. Arguments QENum {D}. Arguments QEBin {D}.
Arguments QEUn {D}. Arguments QEPow {D}. Arguments QESum {D}. Arguments QEProd {D}. Arguments QRowNone {D}. Arguments QRowArray {D}.
Arguments QRowList {D}. Arguments mkqkey {D}. Arguments qk_min {D}. Arguments qk_max {D}. Arguments mkqmeta {D}. Arguments qm_box {D}.
Arguments qm_keys {D}. Arguments q_row_len {D}. Arguments q_item {D}. Arguments q_take {D}.

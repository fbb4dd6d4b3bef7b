(** Specification vocabulary for comoving/physical arrays: what an array stands for,
    and the ordinary meaning of an expression. *)
From Coq Require Import List ZArith Bool Reals.
From Verif Require Import Base CosmoModel.
Import ListNotations.
Open Scope R_scope.

(** The physical values an array stands for: numbers stored in comoving coordinates
    and scaling as [a ** k] are multiplied by [s ** k], others are taken as they are. *)
Definition phys (x : carr) : list R :=
  match acm x, acf x with
  | Some true, Some (mkcf (Some k) (Some s)) => map (fun v => Rpower s k * v) (avals x)
  | _, _ => avals x
  end.

(** The comoving values. *)
Definition comov (x : carr) : list R :=
  match acm x, acf x with
  | Some false, Some (mkcf (Some k) (Some s)) => map (fun v => v / Rpower s k) (avals x)
  | _, _ => avals x
  end.

(** [good s k x]: a convertible array at scale factor [s] with exponent [k], with its
    coordinates declared. *)
Record good (s k : R) (x : carr) : Prop := mkgood {
  g_cf : acf x = Some (mkcf (Some k) (Some s));
  g_cm : acm x <> None;
  g_vt : avt x = true
}.

(** The ordinary meaning of an expression: the same operations on physical values.
    It is an error only if shapes do not match. *)
Fixpoint meaning (e : expr) : res (list R) :=
  match e with
  | EArr x => Ok (phys x)
  | ENum v => Ok [v]
  | EBin o e1 e2 => do v <- meaning e1; do w <- meaning e2; broadcast (bfun o) v w
  | EUn o e1 => do v <- meaning e1; Ok (map (ufun o) v)
  | EPow e1 p => do v <- meaning e1; broadcast npow v [p]
  | ESum e1 => do v <- meaning e1; Ok [sumR v]
  | EProd e1 => do v <- meaning e1; Ok [prodR v]
  end.

(** Dimension of an expression: [DArr k] an array scaling as [a ** k], [DNum] a plain
    number (which has no scaling of its own). *)
Inductive dim := DArr (k : R) | DNum.

(** Dimensional analysis.  Sums, differences, maxima and minima need equal exponents;
    a product adds them, a quotient subtracts, powers multiply.  Plain numbers may
    multiply and divide, but not be added to an array. *)
Inductive has_dim (s : R) : expr -> dim -> Prop :=
| hd_arr : forall x k, good s k x -> has_dim s (EArr x) (DArr k)
| hd_num : forall v, has_dim s (ENum v) DNum
| hd_same : forall o e1 e2 d, In o [Badd; Bsub; Bmax; Bmin] ->
    has_dim s e1 d -> has_dim s e2 d -> has_dim s (EBin o e1 e2) d
| hd_mul : forall e1 e2 j k,
    has_dim s e1 (DArr j) -> has_dim s e2 (DArr k) -> has_dim s (EBin Bmul e1 e2) (DArr (j + k))
| hd_div : forall e1 e2 j k,
    has_dim s e1 (DArr j) -> has_dim s e2 (DArr k) -> has_dim s (EBin Bdiv e1 e2) (DArr (j - k))
| hd_num_l : forall o e1 e2 k, o = Bmul ->
    has_dim s e1 DNum -> has_dim s e2 (DArr k) -> has_dim s (EBin o e1 e2) (DArr k)
| hd_num_div : forall e1 e2 k,
    has_dim s e1 DNum -> has_dim s e2 (DArr k) -> has_dim s (EBin Bdiv e1 e2) (DArr (- k))
| hd_num_r : forall o e1 e2 k, In o [Bmul; Bdiv] ->
    has_dim s e1 (DArr k) -> has_dim s e2 DNum -> has_dim s (EBin o e1 e2) (DArr k)
| hd_num_num : forall o e1 e2,
    has_dim s e1 DNum -> has_dim s e2 DNum -> has_dim s (EBin o e1 e2) DNum
| hd_keep : forall o e1 d, In o [Uneg; Uabs] -> has_dim s e1 d -> has_dim s (EUn o e1) d
| hd_sqrt : forall e1 k, has_dim s e1 (DArr k) -> has_dim s (EUn Usqrt e1) (DArr (k / 2))
| hd_square : forall e1 k, has_dim s e1 (DArr k) -> has_dim s (EUn Usquare e1) (DArr (2 * k))
| hd_cbrt : forall e1 k, has_dim s e1 (DArr k) -> has_dim s (EUn Ucbrt e1) (DArr (k / 3))
| hd_recip : forall e1 k, has_dim s e1 (DArr k) -> has_dim s (EUn Urecip e1) (DArr (- k))
| hd_un_num : forall o e1, has_dim s e1 DNum -> has_dim s (EUn o e1) DNum
| hd_pow : forall e1 k p, has_dim s e1 (DArr k) -> has_dim s (EPow e1 p) (DArr (k * p))
| hd_pow_num : forall e1 p, has_dim s e1 DNum -> has_dim s (EPow e1 p) DNum
| hd_sum : forall e1 d, has_dim s e1 d -> has_dim s (ESum e1) d
| hd_prod : forall e1 k n v, has_dim s e1 (DArr k) ->
    meaning e1 = Ok v -> n = length v -> has_dim s (EProd e1) (DArr (k * INR n))
| hd_prod_num : forall e1, has_dim s e1 DNum -> has_dim s (EProd e1) DNum.

(** [agrees s d o v]: the computed operand [o] has dimension [d] and stands for the
    physical values [v]. *)
Definition agrees (s : R) (d : dim) (o : operand) (v : list R) : Prop :=
  match d, o with
  | DArr k, OArr x => good s k x /\ phys x = v
  | DNum, OPlain w => w = v
  | _, _ => False
  end.

(** [derived h k i]: object [k] was made, directly or through other objects, from
    object [i]. *)
Inductive derived (h : heap) : nat -> nat -> Prop :=
| der_self : forall i, derived h i i
| der_step : forall k o j i, nth_error (objs h) k = Some o -> In j (o_from o) ->
    derived h j i -> derived h k i.

(** Attributes that the constructor would accept. *)
Definition lawful (o : obj) : Prop := verify (o_cm o) (o_vt o) = Ok tt.

(** A heap whose objects are lawful, look at existing buffers and were made from
    earlier objects; arrays sharing a buffer with a non-convertible array are
    non-convertible too. *)
Record heap_ok (h : heap) : Prop := mkheap_ok {
  ho_lawful : forall i o, nth_error (objs h) i = Some o -> lawful o;
  ho_buf : forall i o, nth_error (objs h) i = Some o -> (o_buf o < length (bufs h))%nat;
  ho_from : forall i o j, nth_error (objs h) i = Some o -> In j (o_from o) -> (j < i)%nat;
  ho_share : forall i j o p, nth_error (objs h) i = Some o -> nth_error (objs h) j = Some p ->
      o_buf o = o_buf p -> o_vt o = o_vt p;
  ho_taint : forall i o j p, nth_error (objs h) i = Some o -> In j (o_from o) ->
      nth_error (objs h) j = Some p -> o_vt p = false -> o_vt o = false
}.

(** Statements that do not re-wrap an array with another [valid_transform]. *)
Definition no_rewrap (h : heap) (s : stmt) : Prop :=
  match s with
  | SWrap i _ vt => forall o, nth_error (objs h) i = Some o -> vt = o_vt o
  | _ => True
  end.

(** Every statement of a history, in the heap it runs in. *)
Fixpoint all_steps (P : heap -> stmt -> Prop) (h : heap) (l : list stmt) : Prop :=
  match l with
  | [] => True
  | s :: t => P h s /\ all_steps P (fst (step h s)) t
  end.

(** What a statement that makes a new array computes from the arrays it names. *)
Inductive yields (h : heap) : stmt -> res carr -> Prop :=
| yields_copy i o : nth_error (objs h) i = Some o -> yields h (SCopy i) (Ok (arr_of h o))
| yields_comoving i o : nth_error (objs h) i = Some o -> yields h (SToC i) (to_comoving (arr_of h o))
| yields_physical i o : nth_error (objs h) i = Some o -> yields h (SToP i) (to_physical (arr_of h o))
| yields_to i cm o : nth_error (objs h) i = Some o -> yields h (STo i cm) (to_cm cm (arr_of h o))
| yields_bin f i j o p : nth_error (objs h) i = Some o -> nth_error (objs h) j = Some p ->
    yields h (SBin f i j) (binop f (OArr (arr_of h o)) (OArr (arr_of h p)))
| yields_un f i o : nth_error (objs h) i = Some o -> yields h (SUn f i) (unop f (OArr (arr_of h o)))
| yields_pow i q o : nth_error (objs h) i = Some o -> yields h (SPow i q) (powop (OArr (arr_of h o)) (OPlain [q])).

(** The conversion in place of a statement. *)
Inductive converts (i : nat) : stmt -> (carr -> res carr) -> Prop :=
| converts_comoving : converts i (SConvC i) convert_to_comoving
| converts_physical : converts i (SConvP i) convert_to_physical.

(** Array number [i] of the heap. *)
Definition array_at (h : heap) (i : nat) (x : carr) : Prop :=
  exists o, nth_error (objs h) i = Some o /\ arr_of h o = x.
Definition shared (h : heap) (i j : nat) : Prop :=
  exists o p, nth_error (objs h) i = Some o /\ nth_error (objs h) j = Some p /\ o_buf o = o_buf p.

(** Every outcome of the conversions and of the rules for labels. *)
From Coq Require Import List ZArith Bool Reals.
From Verif Require Import Base CosmoModel.
Import ListNotations.
Open Scope R_scope.

(** Conversion to comoving ([b = true]) or physical ([b = false]) numbers. *)
Inductive converted (b : bool) (x : carr) : res carr -> Prop :=
| cv_there : acm x = Some b -> converted b x (Ok x)
| cv_unknown : acm x = None -> converted b x (Err InvalidConversion)
| cv_fixed : b = true -> acm x = Some false -> avt x = false -> converted b x (Err InvalidConversion)
| cv_no_label : acm x = Some (negb b) -> (b = true -> avt x = true) -> acf x = None ->
    converted b x (Err AttributeError)
| cv_no_value : forall c, acm x = Some (negb b) -> (b = true -> avt x = true) -> acf x = Some c ->
    cexpr c = None \/ cscale c = None -> converted b x (Err TypeError)
| cv_values : forall k s, acm x = Some (negb b) -> (b = true -> avt x = true) ->
    acf x = Some (mkcf (Some k) (Some s)) ->
    converted b x (Ok (mkarr (map (fun v => if b then v / Rpower s k else v * Rpower s k) (avals x))
                             (acf x) (Some b) (avt x) (acomp x))).

(** Copies: arrays that must not be converted are refused first. *)
Inductive copied (b : bool) (x : carr) : res carr -> Prop :=
| cp_fixed : avt x = false -> (b = true \/ acm x = Some true) -> copied b x (Err InvalidConversion)
| cp_done : forall r, avt x = true \/ (b = false /\ acm x <> Some true) -> converted b x r -> copied b x r.

(** [to] with a flag: an array that must not be converted is only given as it is. *)
Inductive asked (b : bool) (x : carr) : res carr -> Prop :=
| as_fixed : avt x = false -> acm x <> Some b -> asked b x (Err InvalidConversion)
| as_there : avt x = false -> acm x = Some b -> asked b x (Ok x)
| as_done : forall r, avt x = true -> converted b x r -> asked b x r.

(** Flags that contradict each other. *)
Definition contradict (cm : option bool) (vt : bool) : Prop :=
  (cm = None /\ vt = true) \/ (cm = Some true /\ vt = false).

(** The value of a label, and labels that count as equal. *)
Definition label_value (c : cf) : option R :=
  match c with mkcf (Some k) (Some s) => Some (Rpower s k) | _ => None end.
Definition alike (c d : cf) : Prop :=
  cscale c = cscale d /\
  match label_value c, label_value d with
  | None, None => True
  | Some u, Some v => Rabs (u - v) <= 1 / 10 ^ 8 + 1 / 10 ^ 6 * Rabs v
  | _, _ => False
  end.

(** The label of a product of two labels. *)
Inductive product : cf -> cf -> res (option cf) -> Prop :=
| pr_scales : forall c d, cscale c <> cscale d -> product c d (Err InvalidScaleFactor)
| pr_none : forall s, product (mkcf None s) (mkcf None s) (Ok (Some (mkcf None s)))
| pr_sum : forall j k s, product (mkcf (Some j) s) (mkcf (Some k) s) (Ok (Some (mkcf (Some (j + k)) s)))
| pr_left : forall j s, product (mkcf (Some j) s) (mkcf None s) (Err InvalidScaleFactor)
| pr_right : forall k s, product (mkcf None s) (mkcf (Some k) s) (Err InvalidScaleFactor).
Definition inverted (c : cf) : cf := mkcf (option_map (fun k => k * - 1) (cexpr c)) (cscale c).

(** The label of the result of a two-argument function. *)
Inductive label_of : bop -> option cf -> option cf -> res (option cf) -> Prop :=
| la_same_none : forall o c, In o [Badd; Bsub] -> label_of o None c (Ok c)
| la_same_left : forall o c, In o [Badd; Bsub] -> label_of o (Some c) None (Ok (Some c))
| la_same_alike : forall o c d, In o [Badd; Bsub; Bmax; Bmin] -> alike c d -> label_of o (Some c) (Some d) (Ok (Some c))
| la_same_differ : forall o c d, In o [Badd; Bsub; Bmax; Bmin] -> ~ alike c d -> label_of o (Some c) (Some d) (Err ValueError)
| la_most_left : forall o c, In o [Bmax; Bmin] -> label_of o c None (Ok c)
| la_most_none : forall o d, In o [Bmax; Bmin] -> label_of o None (Some d) (Err ValueError)
| la_mul_none : forall c, label_of Bmul None c (Ok c)
| la_mul_left : forall c, label_of Bmul (Some c) None (Ok (Some c))
| la_mul : forall c d r, product c d r -> label_of Bmul (Some c) (Some d) r
| la_div_none : forall c, label_of Bdiv c None (Ok c)
| la_div_right : forall d, label_of Bdiv None (Some d) (Ok (Some (inverted d)))
| la_div : forall c d r, product c (inverted d) r -> label_of Bdiv (Some c) (Some d) r.

(** The label of a power: refused if the exponent carries a label whose value is known
    and not one. *)
Inductive power_label (p : R) : option cf -> option cf -> res (option cf) -> Prop :=
| pw_bad : forall c d u, label_value d = Some u -> u <> 1 -> power_label p c (Some d) (Err ValueError)
| pw_none : forall d, (forall e u, d = Some e -> label_value e = Some u -> u = 1) -> power_label p None d (Ok None)
| pw_some : forall c d, (forall e u, d = Some e -> label_value e = Some u -> u = 1) ->
    power_label p (Some c) d (Ok (Some (mkcf (option_map (fun k => k * p) (cexpr c)) (cscale c)))).

(** The label of many arguments that must agree: the first there is. *)
Definition first_label (l : list (option cf)) (c : option cf) : Prop :=
  match c with
  | None => forall x, In x l -> x = None
  | Some d => exists a b, l = a ++ Some d :: b /\ forall x, In x a -> x = None
  end.

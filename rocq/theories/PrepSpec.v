(** What happens to the arguments of every wrapped function before numpy sees them: vocabulary for C94. *)
From Coq Require Import List ZArith Bool Reals.
From Verif Require Import Base CosmoModel CosmoExactSpec FuncModel.
Import ListNotations.

(** Comoving and physical arrays side by side, none without a frame. *)
Definition mixed (l : list operand) : Prop :=
  (exists x, In (OArr x) l /\ acm x = Some true) /\ (exists x, In (OArr x) l /\ acm x = Some false)
  /\ (forall x, In (OArr x) l -> acm x <> None).

(** An array that must not be converted. *)
Definition fixed_in (l : list operand) : Prop := exists x, In (OArr x) l /\ avt x = false.

(** What is done with the arguments. *)
Inductive choice := AsGiven (frame : option bool) | Refused | ToComoving | AsPhysical.
Inductive chosen (prefer : bool) (args all : list operand) : choice -> Prop :=
| ch_unset : (forall x, In (OArr x) all -> acm x = None) -> chosen prefer args all (AsGiven None)
| ch_same : forall b, (exists x, In (OArr x) all) -> (forall x, In (OArr x) all -> acm x = Some b) ->
    chosen prefer args all (AsGiven (Some b))
| ch_refused : forall x y, In (OArr x) all -> acm x = None -> In (OArr y) all -> acm y <> None ->
    chosen prefer args all Refused
| ch_comoving : mixed all -> prefer = true -> ~ fixed_in args -> chosen prefer args all ToComoving
| ch_physical : mixed all -> prefer = false \/ fixed_in args -> chosen prefer args all AsPhysical.

(** Everything in comoving numbers, or the first that refuses. *)
Inductive brought : operand -> res operand -> Prop :=
| br_plain : forall v, brought (OPlain v) (Ok (OPlain v))
| br_there : forall x, acm x = Some true -> brought (OArr x) (Ok (OArr x))
| br_copy : forall x y, acm x <> Some true -> copied true x (Ok y) -> brought (OArr x) (Ok (OArr y))
| br_error : forall x e, acm x <> Some true -> copied true x (Err e) -> brought (OArr x) (Err e).
Inductive all_brought : list operand -> res (list operand) -> Prop :=
| ab_nil : all_brought [] (Ok [])
| ab_cons : forall o o' l l', brought o (Ok o') -> all_brought l (Ok l') -> all_brought (o :: l) (Ok (o' :: l'))
| ab_first : forall o l e, brought o (Err e) -> all_brought (o :: l) (Err e)
| ab_later : forall o o' l e, brought o (Ok o') -> all_brought l (Err e) -> all_brought (o :: l) (Err e).

(** The compression of the result: the pair that all arguments have in common. *)
Definition pair_of (o : operand) : bool * comp :=
  match o with OArr x => (true, acomp x) | OPlain _ => (false, CNone) end.
Inductive in_common : list operand -> comp -> Prop :=
| ic_nothing : in_common [] CNone
| ic_same : forall l b c, l <> [] -> (forall o, In o l -> pair_of o = (b, c)) -> in_common l (CPair b c)
| ic_differ : forall l o o', In o l -> In o' l -> pair_of o <> pair_of o' -> in_common l CNone.

(** Whether the result may be converted. *)
Inductive convertible : list operand -> bool -> Prop :=
| cb_no : forall l, fixed_in l -> convertible l false
| cb_yes : forall l, ~ fixed_in l -> convertible l true.

Definition own_label (o : operand) : option cf := match o with OArr x => acf x | OPlain _ => None end.

(** Every outcome. *)
Inductive prepared (prefer : bool) (args kw : list operand) : res prepk -> Prop :=
| pd_refused : chosen prefer args (args ++ kw) Refused -> prepared prefer args kw (Err ValueError)
| pd_given : forall f vt c, chosen prefer args (args ++ kw) (AsGiven f) ->
    convertible (args ++ kw) vt -> in_common (args ++ kw) c ->
    prepared prefer args kw (Ok (mkprepk args kw (map own_label args) (map own_label kw) f vt c false))
| pd_error : forall e, chosen prefer args (args ++ kw) ToComoving -> all_brought (args ++ kw) (Err e) ->
    prepared prefer args kw (Err e)
| pd_comoving : forall args' kw' vt c, chosen prefer args (args ++ kw) ToComoving ->
    length args' = length args -> all_brought (args ++ kw) (Ok (args' ++ kw')) ->
    convertible (args ++ kw) vt -> in_common (args ++ kw) c ->
    prepared prefer args kw (Ok (mkprepk args' kw' (map own_label args) (map own_label kw) (Some true) vt c true))
| pd_physical : forall vt c, chosen prefer args (args ++ kw) AsPhysical ->
    convertible (args ++ kw) vt -> in_common (args ++ kw) c ->
    prepared prefer args kw (Ok (mkprepk args kw (map own_label args) (map own_label kw) (Some false) vt c true)).

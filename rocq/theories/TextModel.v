(** Model of the representation of arrays, _array_functions.py 2209-2232 [array_repr] (other texts: PrintModel.v).

    unyt's text is an argument, and so is the text of a factor (FactorModel.v).  The coercion of the arguments is left
    out: there is one array.  Texts are lists of ASCII characters. *)
From Coq Require Import String List ZArith Bool Ascii.
From Verif Require Import Base NamesModel.
Import ListNotations.
Open Scope list_scope.

(** [str] of a flag. *)
Definition flag_text (b : option bool) : name :=
  match b with None => txt "None" | Some true => txt "True" | Some false => txt "False" end.

(** The attributes that [hasattr] finds: the flag, the text of the factor (FactorModel.f_str), the mark. *)
Record labels := mk_labels { l_comoving : option (option bool); l_factor : option name; l_valid : option bool }.

Definition text_of {B} (f : B -> name) (o : option B) : name := match o with Some x => f x | None => [] end.

(** [array_repr]: the last character of unyt's text goes, the labels are added, and a bracket closes. *)
Definition array_repr (unyt : name) (l : labels) : name :=
  removelast unyt
    ++ text_of (fun c => txt ", comoving='" ++ flag_text c ++ txt "'") (l_comoving l)
    ++ text_of (fun f => txt ", cosmo_factor='" ++ f ++ txt "'") (l_factor l)
    ++ text_of (fun v => txt ", valid_transform='" ++ flag_text (Some v) ++ txt "'") (l_valid l)
    ++ txt ")".

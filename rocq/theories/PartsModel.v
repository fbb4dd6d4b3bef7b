(** Model of the wrapped numpy functions that return several parts, numbers without
    attributes, or nothing: swiftsimio/_array_functions.py, [linspace] with [retstep]
    (1734-1761), [linalg.lstsq] (1884-1896), [linalg.eig] and [linalg.eigh] (1915-1928),
    [savetxt] (1939-1976) and [sinc] (2085-2089).

    Simplifications: those of FuncModel.v.  The parts numpy computes are flat lists of
    numbers; a part that the wrapper returns as it is carries no attributes.  The text
    [savetxt] writes for a number is a parameter; its format arguments are not modelled. *)
From Coq Require Import String List ZArith Bool Reals.
From Verif Require Import Base CosmoModel FuncModel.
Import ListNotations.
Open Scope R_scope.

(** What becomes of each part: labelled by a rule, or returned as it is. *)
Inductive part := Labelled (h : rule) | AsIs.

(** All labels are computed before numpy is called (1886-1888). *)
Fixpoint part_labels (ps : list part) (cfs kws : list (option cf)) : res (list (option (option cf))) :=
  match ps with
  | [] => Ok []
  | AsIs :: t => do r <- part_labels t cfs kws; Ok (None :: r)
  | Labelled h :: t => do c <- h cfs kws; do r <- part_labels t cfs kws; Ok (Some c :: r)
  end.
Fixpoint attach (p : prepk) (ls : list (option (option cf))) (vs : list (list R)) : list operand :=
  match ls, vs with
  | Some c :: lt, v :: vt => OArr (label v c p) :: attach p lt vt
  | None :: lt, v :: vt => OPlain v :: attach p lt vt
  | _, _ => []
  end.
(** numpy's function: the parts it returns. *)
Definition pfun := list (list R) -> list (list R) -> res (list (list R)).
Definition call_parts (f : pfun) (ps : list part) (args kw : list operand) : res (list operand) :=
  do p <- prepare_kw true args kw;
  do ls <- part_labels ps (k_cfs p) (k_kwcfs p);
  do vs <- f (numbers (k_args p)) (numbers (k_kw p));
  Ok (attach p ls vs).

Inductive several := Plstsq | Peig | Peigh | Plinspace_step.
Definition parts_of (n : several) : list part :=
  match n with
  | Plstsq => [Labelled (two (fun c d => h_divide d c)); Labelled (two (fun _ d => h_square d)); AsIs;
               Labelled (first keep)]
  | Peig | Peigh => [Labelled (first keep); AsIs]
  | Plinspace_step => [Labelled (two h_preserve2); Labelled (two h_preserve2)]
  end.
Definition np_parts (n : several) (f : pfun) (args kw : list operand) : res (list operand) :=
  call_parts f (parts_of n) args kw.

(** [sinc] is handed to unyt, which looks at the stored numbers only. *)
Definition sincR (x : R) : R := if Req_EM_T x 0 then 1 else sin (PI * x) / (PI * x).
Definition np_sinc (x : operand) : list R := map sincR (op_vals x).

(** [savetxt]: the file gets the stored numbers. *)
Definition np_savetxt (text : R -> string) (x : operand) : res (list string) :=
  do p <- prepare_kw true [OPlain []; x] [OPlain []; OPlain []; OPlain []; OPlain []; OPlain []; OPlain []; OPlain []];
  match k_args p with
  | [_; y] => Ok (map text (op_vals y))
  | _ => Err TypeError
  end.

(** Model of the deprecated argument [intersect] of SWIFTMask.constrain_spatial, masks.py 741-817, on top of
    MaskModel.v.  A warning is recorded; [strict] is a filter that turns it into an exception ([python -W error]). *)
From Coq Require Import List ZArith QArith Bool.
From Verif Require Import Base MaskModel.
Import ListNotations.

Record spatial_call := mk_call { c_region : list (option (list Q)); c_union : bool; c_intersect : option bool }.

(** What a call raises: one of the source's exceptions, or the warning. *)
Inductive raised := Exception (e : pyerr) | Deprecation.

(** The new state, whether it warned, what it raised. *)
Definition spatial_with (strict : bool) (mm : mask_meta) (c : spatial_call) (st : mask_state) : mask_state * bool * option raised :=
  match c_intersect c with
  | Some v =>
      if strict then (st, true, Some Deprecation)
      else let '(st', e) := constrain_spatial mm (c_region c) v st in (st', true, option_map Exception e)
  | None => let '(st', e) := constrain_spatial mm (c_region c) (c_union c) st in (st', false, option_map Exception e)
  end.

(** Calls one after the other; exceptions are caught by the user. *)
Fixpoint spatial_calls (strict : bool) (mm : mask_meta) (cs : list spatial_call) (st : mask_state)
  : mask_state * list (bool * option raised) :=
  match cs with
  | [] => (st, [])
  | c :: cs =>
      let '(st', w, e) := spatial_with strict mm c st in
      let '(st'', es) := spatial_calls strict mm cs st' in
      (st'', (w, e) :: es)
  end.

(** Every outcome of the constructors and of the conversions with units: vocabulary for C86 and C87. *)
From Coq Require Import List ZArith Bool Reals.
From Verif Require Import Base CosmoModel CosmoExactSpec CtorModel CtorSpec.
Import ListNotations.
Open Scope R_scope.

(** Arguments for a factor: what they ask for, or why they are refused. *)
Inductive factored : option cf -> option R -> option R -> res (option cf) -> Prop :=
| fa_asked : forall c sf se r, CtorSpec.asked c sf se r -> factored c sf se (Ok r)
| fa_scale_only : forall s, factored None (Some s) None (Err ValueError)
| fa_exponent_only : forall e, factored None None (Some e) (Err ValueError)
| fa_no_exponent : forall c s, factored (Some c) (Some s) None (Err TypeError)
| fa_differs : forall c sf e, ~ alike (mkcf (Some e) sf) c -> factored (Some c) sf (Some e) (Err ValueError).

(** Without validation: a scale factor needs a factor (of whatever value) and an exponent. *)
Inductive unchecked : option cf -> option R -> option R -> res cf -> Prop :=
| un_plain : forall c se, unchecked c None se (Ok (settled c))
| un_no_class : forall s se, unchecked None (Some s) se (Err AttributeError)
| un_no_exponent : forall c s, unchecked (Some c) (Some s) None (Err TypeError)
| un_made : forall c s e, unchecked (Some c) (Some s) (Some e) (Ok (mkcf (Some e) (Some s))).

(** Why an array of numbers is refused. *)
Inductive numbers_refused {U} (k : kwargs U) : pyerr -> Prop :=
| nr_factor : forall e, factored (k_cf k) (k_sf k) (k_se k) (Err e) -> numbers_refused k e
| nr_flags : forall c, factored (k_cf k) (k_sf k) (k_se k) (Ok c) ->
    k_cm k = Some true -> k_vt k = false -> numbers_refused k InvalidConversion.

(** The array with another factor. *)
Definition with_factor (x : carr) (c : cf) : carr := mkarr (avals x) (Some c) (acm x) (avt x) (acomp x).

(** Why a cosmo array is refused. *)
Inductive cosmo_refused {U} (x : carr) (k : kwargs U) : pyerr -> Prop :=
| cr_no_factor : acf x = None -> cosmo_refused x k ValueError
| cr_factor : forall own e, acf x = Some own ->
    factored (match cscale own with None => None | Some _ => Some own end) (k_sf k) (k_se k) (Err e) ->
    cosmo_refused x k e
| cr_convert : forall own c b e, acf x = Some own ->
    factored (match cscale own with None => None | Some _ => Some own end) (k_sf k) (k_se k) (Ok c) ->
    k_cm k = Some b -> converted b (with_factor x (given c own)) (Err e) -> cosmo_refused x k e
| cr_flags : forall own c, acf x = Some own ->
    factored (match cscale own with None => None | Some _ => Some own end) (k_sf k) (k_se k) (Ok c) ->
    (forall b, k_cm k = Some b -> exists y, converted b (with_factor x (given c own)) (Ok y)) ->
    contradict (first_of (k_cm k) (acm x)) (k_vt k) -> cosmo_refused x k InvalidConversion.

(** Changing the unit. *)
Inductive rescaled {U} (ratio : U -> U -> res R) (x : uarr U) : option U -> res (uarr U) -> Prop :=
| rs_none : rescaled ratio x None (Ok x)
| rs_refused : forall v e, ratio (u_unit x) v = Err e -> rescaled ratio x (Some v) (Err e)
| rs_done : forall v r, ratio (u_unit x) v = Ok r ->
    rescaled ratio x (Some v)
      (Ok (mku v (mkarr (map (fun a => r * a) (avals (u_arr x))) (acf (u_arr x)) (acm (u_arr x)) (avt (u_arr x))
                        (acomp (u_arr x))))).

(** Then changing the frame. *)
Inductive reframed {U} (b : bool) (x : uarr U) : res (uarr U) -> Prop :=
| rf_refused : forall e, converted b (u_arr x) (Err e) -> reframed b x (Err e)
| rf_done : forall y, converted b (u_arr x) (Ok y) -> reframed b x (Ok (mku (u_unit x) y)).

Inductive both {U} (ratio : U -> U -> res R) (units : option U) (b : bool) (x : uarr U) : res (uarr U) -> Prop :=
| bo_unit : forall e, rescaled ratio x units (Err e) -> both ratio units b x (Err e)
| bo_frame : forall m r, rescaled ratio x units (Ok m) -> reframed b m r -> both ratio units b x r.

(** In place: the array afterwards and the exception; a frame that is refused leaves the new unit. *)
Inductive placed {U} (ratio : U -> U -> res R) (units : option U) (b : bool) (x : uarr U) : uarr U * res unit -> Prop :=
| pl_unit : forall e, rescaled ratio x units (Err e) -> placed ratio units b x (x, Err e)
| pl_frame : forall m e, rescaled ratio x units (Ok m) -> reframed b m (Err e) -> placed ratio units b x (m, Err e)
| pl_done : forall m y, rescaled ratio x units (Ok m) -> reframed b m (Ok y) -> placed ratio units b x (y, Ok tt).

(** [to_comoving] and [to_physical]: the unit is converted even if none is passed, to itself. *)
Inductive copied_u {U} (ratio : U -> U -> res R) (units : option U) (b : bool) (x : uarr U) : res (uarr U) -> Prop :=
| cu_fixed : avt (u_arr x) = false -> acm (u_arr x) = Some true \/ (b = true /\ acm (u_arr x) = None) ->
    copied_u ratio units b x (Err InvalidConversion)
| cu_done : forall r, ~ (avt (u_arr x) = false /\ (acm (u_arr x) = Some true \/ (b = true /\ acm (u_arr x) = None))) ->
    both ratio (Some (given units (u_unit x))) b x r -> copied_u ratio units b x r.

(** [to]. *)
Inductive asked_u {U} (ratio : U -> U -> res R) (units : option U) (x : uarr U) : option bool -> res (uarr U) -> Prop :=
| au_unit_only : forall r, rescaled ratio x units r -> asked_u ratio units x None r
| au_fixed : forall b, avt (u_arr x) = false -> acm (u_arr x) <> Some b ->
    asked_u ratio units x (Some b) (Err InvalidConversion)
| au_done : forall b r, avt (u_arr x) = true \/ acm (u_arr x) = Some b -> both ratio units b x r ->
    asked_u ratio units x (Some b) r.

(** Compatible with the frame [b]: in that frame already (no frame counts as physical), or with a factor that is one. *)
Inductive compatible (b : bool) (x : carr) : res bool -> Prop :=
| co_there : (acm x = Some true <-> b = true) -> compatible b x (Ok true)
| co_no_factor : ~ (acm x = Some true <-> b = true) -> acf x = None -> compatible b x (Err AttributeError)
| co_one : forall c, ~ (acm x = Some true <-> b = true) -> acf x = Some c -> number_of c 1 -> compatible b x (Ok true)
| co_other : forall c, ~ (acm x = Some true <-> b = true) -> acf x = Some c -> ~ number_of c 1 ->
    compatible b x (Ok false).

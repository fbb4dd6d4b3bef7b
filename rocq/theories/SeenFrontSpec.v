(** Vocabulary for pictures of a part of a dataset. *)
From Coq Require Import List ZArith Reals Bool.
From Verif Require Import Base VisModel VisSpec VisTheorems RotModel FrontModel FrontSpec SeenSpec.
Import ListNotations.
Open Scope R_scope.

(** Within [w] of the interval; in a periodic box, a copy of it is. *)
Definition reaches (periodic : bool) (L lo hi w x : R) : Prop :=
  if periodic then image_in L (lo - w) (hi + w) x else lo - w <= x <= hi + w.

(** The particle, where it is drawn, reaches the square region of a projection... *)
Definition looks2 (periodic : bool) (box : vec) (r : region) (rotation : option (mat * vec)) (w : R) (p : part) : Prop :=
  let c := FrontSpec.seen rotation p in
  reaches periodic (at_x box) (r_xmin r) (r_xmin r + extent r) w (at_x c)
  /\ reaches periodic (at_y box) (r_ymin r) (r_ymin r + extent r) w (at_y c).
(** ... that of a slice at height [t], and the height... *)
Definition looks_slice (periodic : bool) (box : vec) (r : region) (t : R) (rotation : option (mat * vec)) (w : R) (p : part) : Prop :=
  looks2 periodic box r rotation w p
  /\ reaches periodic (at_z box) t t w (at_z (FrontSpec.seen rotation p)).
(** ... or a cube. *)
Definition looks3 (periodic : bool) (box : vec) (corner : vec) (side : R) (rotation : option (mat * vec)) (w : R) (p : part) : Prop :=
  let c := FrontSpec.seen rotation p in
  reaches periodic (at_x box) (at_x corner) (at_x corner + side) w (at_x c)
  /\ reaches periodic (at_y box) (at_y corner) (at_y corner + side) w (at_y c)
  /\ reaches periodic (at_z box) (at_z corner) (at_z corner + side) w (at_z c).

(** Backends whose image does not depend on particles further than [k] smoothing lengths from it. *)
Definition local2 (k : R) (backend : Z -> R -> R -> list part -> res image) : Prop :=
  forall n bx by_ ps qs, (1 <= n)%Z -> (forall p, In p ps -> 0 <= p_h p) ->
    without (fun p => seen2 bx by_ (k * p_h p) p) ps qs ->
    agree (square n) (backend n bx by_ ps) (backend n bx by_ qs).
Definition local_slice (k : R) (backend : Z -> Z -> R -> R -> R -> R -> list part -> res image) : Prop :=
  forall xres yres zs bx by_ bz ps qs, (1 <= Z.max xres yres)%Z -> (forall p, In p ps -> 0 < p_h p) ->
    without (fun p => seen_slice zs bx by_ bz (k * p_h p) p) ps qs ->
    agree [xres; yres] (backend xres yres zs bx by_ bz ps) (backend xres yres zs bx by_ bz qs).
Definition local3 (k : R) (backend : Z -> R -> R -> R -> list part -> res image) : Prop :=
  forall n bx by_ bz ps qs, (1 <= n)%Z -> (forall p, In p ps -> 0 <= p_h p) ->
    without (fun p => seen3 bx by_ bz (k * p_h p) p) ps qs ->
    agree (cube n) (backend n bx by_ bz ps) (backend n bx by_ bz qs).

(** Both are drawn, with the same shape and the same values. *)
Definition same_picture (r s : res picture) : Prop :=
  exists sh f g, r = Ok (mkpicture sh f) /\ s = Ok (mkpicture sh g)
    /\ forall c, in_bounds sh c = true -> f c = g c.

(** Vocabulary for images of voxel grids: the light of a column of voxels, limits and scaled values. *)
From Coq Require Import List Arith Reals Bool.
From Verif Require Import Base VisModel VolImageModel.
Import ListNotations.
Open Scope R_scope.

(** The normal distribution around [c]. *)
Definition gauss (c w v : R) : R := exp (- (((c - v) / w) ^ 2 / 2)) / (w * sqrt (2 * PI)).
(** The voxels along the third axis and their light. *)
Definition column (d : voxels) (i j : nat) : list R := map (vat d i j) (seq 0 (vz d)).
Definition light (d : voxels) (c w : R) (i j : nat) : R := sumR (map (gauss c w) (column d i j)).
Definition columns_of (d : voxels) (i j : nat) : Prop := (i < vx d)%nat /\ (j < vy d)%nat.

(** The least and the greatest light of all columns. *)
Definition darkest (d : voxels) (c w v : R) : Prop :=
  (exists i j, columns_of d i j /\ light d c w i j = v) /\
  (forall i j, columns_of d i j -> v <= light d c w i j).
Definition brightest (d : voxels) (c w v : R) : Prop :=
  (exists i j, columns_of d i j /\ light d c w i j = v) /\
  (forall i j, columns_of d i j -> light d c w i j <= v).

(** Entry k0 of the list is the first one that is the same object as entry k. *)
Definition first_use (refs : list nat) (k k0 : nat) : Prop :=
  (k0 <= k)%nat /\ nth_error refs k0 = nth_error refs k /\
  forall j, (j < k0)%nat -> nth_error refs j <> nth_error refs k.
(** The limits for image k: those of the object as it was passed, and if they were unset those of the
    first image for which the object is used. *)
Definition limits (d : voxels) (heap : list normalize) (refs : list nat) (centers widths : list R)
    (k : nat) (clip : bool) (lo hi : R) : Prop :=
  exists r n k0 c w, nth_error refs k = Some r /\ nth_error heap r = Some n /\ nclip n = clip /\
    first_use refs k k0 /\ nth_error centers k0 = Some c /\ nth_error widths k0 = Some w /\
    (nmin n = Some lo \/ (nmin n = None /\ darkest d c w lo)) /\
    (nmax n = Some hi \/ (nmax n = None /\ brightest d c w hi)).
(** Values are moved from the limits to 0 and 1; with equal limits they are 0. *)
Definition scaled (clip : bool) (lo hi v x : R) : Prop :=
  (lo = hi /\ x = 0) \/
  (lo < hi /\ exists u, x * (hi - lo) = u - lo /\
     ((clip = false /\ u = v) \/
      (clip = true /\ lo <= u <= hi /\ (v < lo -> u = lo) /\ (hi < v -> u = hi) /\ (lo <= v <= hi -> u = v)))).

(** Centre k of n takes its colour at k / (n - 1). *)
Definition colour_place (n k : nat) : R := INR k / INR (n - 1).

(** No limits that are the wrong way round: both set in order or both unset. *)
Definition sane (n : normalize) : Prop :=
  match nmin n, nmax n with Some a, Some b => a <= b | None, None => True | _, _ => False end.

(** The arguments: fresh objects without limits, the same object for all centres, or the list passed. *)
Definition fresh : normalize := mknorm None None false.
Definition norms_given (a : norm_arg) (n : nat) (heap : list normalize) (refs : list nat) : Prop :=
  match a with
  | NNone => length heap = n /\ length refs = n /\
             forall k, (k < n)%nat -> nth_error heap k = Some fresh /\ nth_error refs k = Some k
  | NOne x => heap = [x] /\ length refs = n /\ forall r, In r refs -> r = O
  | NList h r => heap = h /\ refs = r
  end.
Definition widths_given (a : widths_arg) (n : nat) (ws : list R) : Prop :=
  match a with
  | WFloat w => length ws = n /\ forall x, In x ws -> x = w
  | WList l => ws = l
  | WOther => False
  end.

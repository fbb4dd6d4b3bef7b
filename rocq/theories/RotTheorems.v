(** Rotation matrices: C45. *)
From Coq Require Import String List ZArith Reals Lra Psatz Nsatz.
From Verif Require Import Base RotModel RotProofs.
Import ListNotations.
Open Scope R_scope.
Open Scope string_scope.

(** * Specification *)

(** The unit vector of an axis, and the squared length of the part of a vector that is
    perpendicular to it. *)
Definition unit_vector (axis : string) : vec :=
  if String.eqb axis "x" then (1, 0, 0) else if String.eqb axis "y" then (0, 1, 0) else (0, 0, 1).
Definition perpendicular2 (axis : string) (v : vec) : R :=
  let '(v0, v1, v2) := v in
  if String.eqb axis "x" then v1 * v1 + v2 * v2
  else if String.eqb axis "y" then v0 * v0 + v2 * v2
  else v0 * v0 + v1 * v1.
Definition length2 (v : vec) : R := let '(v0, v1, v2) := v in v0 * v0 + v1 * v1 + v2 * v2.
Definition named (axis : string) : Prop := axis = "x" \/ axis = "y" \/ axis = "z".

(** Further from the axis than one part in a million (the source's [1e-6]). *)
Definition aside (axis : string) (v : vec) : Prop :=
  length2 v < 1000000 * 1000000 * perpendicular2 axis v.

Definition orthogonal (m : mat) : Prop :=
  mmul m (transpose m) = identity /\ mmul (transpose m) m = identity.

(** * Theorems *)

Lemma cross_perpendicular : forall axis v,
  named axis -> dot (cross (unit_vector axis) v) (cross (unit_vector axis) v)
                = perpendicular2 axis v.
Proof.
  intros axis [[v0 v1] v2] [-> | [-> | ->]]; unfold unit_vector, perpendicular2;
    cbn [String.eqb Ascii.eqb Bool.eqb cross dot]; ring.
Qed.

Lemma cross_vscale : forall e k v, cross e (vscale k v) = vscale k (cross e v).
Proof. intros [[e0 e1] e2] k [[v0 v1] v2]. cbn [cross vscale]. split_eq; ring. Qed.

Lemma dot_vscale_r : forall e k v, dot e (vscale k v) = k * dot e v.
Proof. intros [[e0 e1] e2] k [[v0 v1] v2]. cbn [dot vscale]. ring. Qed.

Lemma length2_dot : forall v, length2 v = dot v v.
Proof. intros [[v0 v1] v2]. reflexivity. Qed.

Lemma perpendicular_le : forall axis v, named axis -> perpendicular2 axis v <= length2 v.
Proof.
  intros axis [[v0 v1] v2] [-> | [-> | ->]]; unfold perpendicular2, length2;
    cbn [String.eqb Ascii.eqb Bool.eqb]; nra.
Qed.

Lemma unit_vector_unit : forall axis, dot (unit_vector axis) (unit_vector axis) = 1.
Proof.
  intro axis. unfold unit_vector. destruct (String.eqb axis "x"), (String.eqb axis "y"); cbn [dot]; ring.
Qed.

Lemma direction_named : forall axis,
  named axis -> exists flip, direction axis = Ok (unit_vector axis, flip).
Proof. intros axis [-> | [-> | ->]]; eexists; reflexivity. Qed.

(** The modulus compared with the threshold in the source. *)
Lemma modulus_value : forall axis v,
  named axis -> norm v <> 0 ->
  let c := cross (unit_vector axis) (vscale (/ norm v) v) in
  norm c * norm c * length2 v = perpendicular2 axis v.
Proof.
  intros axis v Ha Hv. cbv zeta. rewrite norm_sq, cross_vscale, dot_vscale, cross_perpendicular by exact Ha.
  rewrite length2_dot, <- norm_sq. field. exact Hv.
Qed.

Lemma length2_pos : forall v, norm v <> 0 <-> 0 < length2 v.
Proof.
  intro v. rewrite length2_dot. split; intro H.
  - pose proof (norm_nonneg v). rewrite <- norm_sq. nra.
  - intro E. rewrite <- norm_sq, E in H. lra.
Qed.

Lemma modulus_threshold : forall axis v,
  named axis -> norm v <> 0 ->
  (norm (cross (unit_vector axis) (vscale (/ norm v) v)) <= 1 / 1000000 <-> ~ aside axis v).
Proof.
  intros axis v Ha Hv. pose proof (modulus_value axis v Ha Hv) as E. cbv zeta in E.
  apply length2_pos in Hv. unfold aside. set (q := norm (cross _ _)) in *.
  assert (0 <= q) by apply norm_nonneg. clearbody q.
  split; intro H1.
  - assert (q * q <= / 1000000 * / 1000000).
    { replace (1 / 1000000) with (/ 1000000) in H1 by lra. apply Rmult_le_compat; lra. }
    nra.
  - assert (H2 : 1000000 * 1000000 * (q * q) * length2 v <= 1 * length2 v) by nra.
    apply Rmult_le_reg_r in H2; [|exact Hv]. nra.
Qed.

(** C45: away from the axis the result is a proper rotation taking the vector to the
    axis, about the common perpendicular of the two. *)
Theorem C45_rotation : forall axis v,
  named axis -> aside axis v ->
  exists m, rotation_matrix_from_vector v axis = Ok m
            /\ orthogonal m /\ det m = 1
            /\ mvec m v = vscale (norm v) (unit_vector axis)
            /\ mvec m (cross (unit_vector axis) v) = cross (unit_vector axis) v.
Proof.
  intros axis v Ha Hs.
  assert (Hn : norm v <> 0).
  { apply length2_pos. pose proof (perpendicular_le axis v Ha). unfold aside in Hs. nra. }
  unfold rotation_matrix_from_vector.
  destruct (Req_EM_T (norm v) 0) as [|_]; [contradiction|].
  destruct (direction_named axis Ha) as [flip ->]. cbn [bind].
  set (e := unit_vector axis). set (u := vscale (/ norm v) v).
  destruct (Rle_dec _ _) as [Hle|Hgt].
  { exfalso. exact (proj1 (modulus_threshold axis v Ha Hn) Hle Hs). }
  assert (Hu : dot u u = 1) by (apply normed_unit; exact Hn).
  assert (He : dot e e = 1) by apply unit_vector_unit.
  set (s := norm (cross e u)) in *.
  assert (Hs0 : 0 < s) by lra.
  assert (Hsc : s * s + dot e u * dot e u = 1).
  { unfold s. rewrite norm_sq, lagrange, He, Hu. ring. }
  assert (Hsin : sin (acos (dot e u)) = s).
  { rewrite sin_acos by nra. unfold Rsqr.
    replace (1 - dot e u * dot e u) with (s * s) by lra. apply sqrt_square. lra. }
  rewrite Hsin.
  set (k := vscale (/ s) (cross e u)).
  change (madd identity _) with (rodrigues k s (dot e u)).
  assert (Hk : dot k k = 1).
  { unfold k. rewrite dot_vscale. unfold s. rewrite <- norm_sq. fold s. field. lra. }
  set (M := rodrigues k s (dot e u)).
  assert (Ho : mmul M (transpose M) = identity) by (apply rodrigues_orthogonal; assumption).
  assert (Hd : det M = 1) by (apply rodrigues_det; assumption).
  destruct (inverse_orthogonal M Ho Hd) as [Hi Hl].
  exists (transpose M). repeat split.
  - exact Hi.
  - rewrite transpose_twice. exact Hl.
  - rewrite transpose_twice. exact Ho.
  - rewrite det_transpose. exact Hd.
  - assert (Hv : v = vscale (norm v) u).
    { unfold u. destruct v as [[v0 v1] v2]. set (q := norm _) in *. clearbody q.
      cbn [vscale]. split_eq; field; exact Hn. }
    rewrite Hv at 1. rewrite mvec_vscale. f_equal.
    assert (Ht : mvec M e = u) by (apply rodrigues_turns; try assumption; lra).
    rewrite <- Ht, mvec_mmul, Hl. apply mvec_identity.
  - assert (Hf : mvec M k = k).
    { unfold M. clear. destruct k as [[k0 k1] k2]. unfold rodrigues, identity. flat.
      split_eq; ring. }
    assert (Hc : cross e v = vscale (norm v * s) k).
    { unfold k, u. rewrite cross_vscale. destruct (cross e v) as [[c0 c1] c2].
      cbn [vscale]. split_eq; field; split; lra || exact Hn. }
    rewrite Hc, mvec_vscale. f_equal.
    rewrite <- Hf at 1. rewrite mvec_mmul, Hl. apply mvec_identity.
Qed.

(** C45: near the axis the result is the reflection that flips the axis, of determinant
    -1, whether the vector points along the axis or against it. *)
Theorem C45_parallel_is_reflection : forall axis v,
  named axis -> 0 < length2 v -> ~ aside axis v ->
  exists m, rotation_matrix_from_vector v axis = Ok m
            /\ det m = -1
            /\ mvec m (unit_vector axis) = vscale (-1) (unit_vector axis)
            /\ forall w, dot (unit_vector axis) w = 0 -> mvec m w = w.
Proof.
  intros axis v Ha Hv Hs. apply length2_pos in Hv.
  unfold rotation_matrix_from_vector.
  destruct (Req_EM_T (norm v) 0) as [|_]; [contradiction|].
  pose proof (proj2 (modulus_threshold axis v Ha Hv) Hs) as Hm.
  destruct Ha as [-> | [-> | ->]];
    (cbn [direction String.eqb Ascii.eqb Bool.eqb bind]; cbv beta iota zeta;
     destruct (Rle_dec _ _) as [_|Hn]; [|exfalso; apply Hn; exact Hm];
     eexists; split; [reflexivity|]; split;
     [cbn [det dot cross]; ring|]; split;
     [cbn; split_eq; ring|];
     intros [[w0 w1] w2] Hw; cbn in Hw; cbn [mvec dot]; split_eq; lra).
Qed.

(** In particular a vector already along the axis is turned round. *)
Theorem C45_aligned_vector_refuted :
  exists m, rotation_matrix_from_vector (0, 0, 1) "z" = Ok m
            /\ mvec m (0, 0, 1) <> (0, 0, 1) /\ det m <> 1.
Proof.
  destruct (C45_parallel_is_reflection "z" (0, 0, 1)) as (m & E & Hd & Hm & _).
  - right; right; reflexivity.
  - unfold length2. lra.
  - unfold aside, length2, perpendicular2. cbn [String.eqb Ascii.eqb Bool.eqb]. lra.
  - exists m. split; [exact E|]. split; [|lra].
    change (unit_vector "z") with ((0, 0, 1) : vec) in Hm. rewrite Hm. cbn [vscale].
    intro H. injection H. lra.
Qed.

(** Any other axis name is refused. *)
Theorem C45_unknown_axis : forall axis v,
  ~ named axis -> 0 < length2 v -> rotation_matrix_from_vector v axis = Err ValueError.
Proof.
  intros axis v Ha Hv. apply length2_pos in Hv. unfold rotation_matrix_from_vector.
  destruct (Req_EM_T (norm v) 0) as [|_]; [contradiction|].
  unfold direction.
  destruct (String.eqb_spec axis "x") as [->|]; [elim Ha; left; reflexivity|].
  destruct (String.eqb_spec axis "y") as [->|]; [elim Ha; right; left; reflexivity|].
  destruct (String.eqb_spec axis "z") as [->|]; [elim Ha; right; right; reflexivity|].
  reflexivity.
Qed.

(** Rotated coordinates: distances are kept, the centre stays, and a particle displaced
    from the centre by the vector lies above the centre along the axis. *)
Theorem C45_rotated_coordinates : forall axis v m center,
  named axis -> aside axis v -> rotation_matrix_from_vector v axis = Ok m ->
  (forall a b, length2 (vsub (rotate m center a) (rotate m center b)) = length2 (vsub a b))
  /\ rotate m center center = center
  /\ rotate m center (vadd center v) = vadd center (vscale (norm v) (unit_vector axis)).
Proof.
  intros axis v m center Ha Hs E.
  destruct (C45_rotation axis v Ha Hs) as (m' & E' & [Ho Hl] & _ & Hv & _).
  rewrite E in E'. injection E' as <-. unfold rotate. repeat split.
  - intros a b.
    assert (Hlin : vsub (vadd (mvec m (vsub a center)) center) (vadd (mvec m (vsub b center)) center)
                   = mvec m (vsub a b)).
    { clear. destruct m as [[[[a0 a1] a2] [[a3 a4] a5]] [[a6 a7] a8]], a as [[? ?] ?], b as [[? ?] ?],
        center as [[? ?] ?]. flat. split_eq; ring. }
    rewrite Hlin. clear - Hl. generalize (vsub a b). intros w. rewrite !length2_dot.
    assert (dot (mvec m w) (mvec m w) = dot w (mvec (mmul (transpose m) m) w)) as ->.
    { destruct m as [[[[a0 a1] a2] [[a3 a4] a5]] [[a6 a7] a8]], w as [[? ?] ?]. flat. ring. }
    rewrite Hl, mvec_identity. reflexivity.
  - clear. destruct m as [[[[a0 a1] a2] [[a3 a4] a5]] [[a6 a7] a8]], center as [[? ?] ?].
    flat. split_eq; ring.
  - assert (vsub (vadd center v) center = v) as ->.
    { destruct center as [[? ?] ?], v as [[? ?] ?]. cbn [vsub vadd]. split_eq; ring. }
    rewrite Hv. destruct (vscale _ _) as [[? ?] ?], center as [[? ?] ?]. cbn [vadd]. split_eq; ring.
Qed.

(** * Concrete cases *)

Example aside_diagonal : named "z" /\ aside "z" (1, 2, 2) /\ norm (1, 2, 2) = 3.
Proof.
  split; [right; right; reflexivity|]. split.
  - unfold aside, length2, perpendicular2. cbn [String.eqb Ascii.eqb Bool.eqb]. lra.
  - unfold norm. cbn [dot]. replace (1 * 1 + 2 * 2 + 2 * 2) with (3 * 3) by ring.
    apply sqrt_square. lra.
Qed.

(** A vector at an angle of 1e-7 to the axis counts as parallel. *)
Example nearly_aligned : 0 < length2 (1, 0, 10000000) /\ ~ aside "z" (1, 0, 10000000).
Proof.
  unfold aside, length2, perpendicular2. cbn [String.eqb Ascii.eqb Bool.eqb]. lra.
Qed.

Print Assumptions C45_rotation.
Print Assumptions C45_parallel_is_reflection.
Print Assumptions C45_aligned_vector_refuted.
Print Assumptions C45_unknown_axis.
Print Assumptions C45_rotated_coordinates.

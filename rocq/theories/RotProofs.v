(** Facts about three dimensional rotations. *)
From Coq Require Import String List ZArith Reals Lra Psatz Nsatz.
From Verif Require Import Base RotModel.
Import ListNotations.
Open Scope R_scope.

Definition rodrigues (k : vec) (s c : R) : mat :=
  madd identity (madd (mscale s (skew k)) (mscale (1 - c) (mmul (skew k) (skew k)))).

Ltac split_eq := repeat match goal with |- (_, _) = (_, _) => f_equal end.

Lemma rodrigues_orthogonal : forall k s c,
  dot k k = 1 -> s * s + c * c = 1 ->
  mmul (rodrigues k s c) (transpose (rodrigues k s c)) = identity.
Proof.
  intros [[k0 k1] k2] s c Hk Hs. cbn [dot] in Hk.
  unfold rodrigues, identity.
  cbn [madd mscale skew mmul transpose vadd vscale dot].
  split_eq; nsatz.
Qed.

Lemma rodrigues_det : forall k s c,
  dot k k = 1 -> s * s + c * c = 1 -> det (rodrigues k s c) = 1.
Proof.
  intros [[k0 k1] k2] s c Hk Hs. cbn [dot] in Hk.
  unfold rodrigues, identity.
  cbn [madd mscale skew mmul transpose vadd vscale dot det cross].
  nsatz.
Qed.

Ltac flat := cbn [madd mscale skew mmul transpose vadd vsub vscale dot det cross mvec].

Lemma mmul_assoc : forall a b c, mmul a (mmul b c) = mmul (mmul a b) c.
Proof.
  intros [[[[a0 a1] a2] [[a3 a4] a5]] [[a6 a7] a8]]
         [[[[b0 b1] b2] [[b3 b4] b5]] [[b6 b7] b8]]
         [[[[c0 c1] c2] [[c3 c4] c5]] [[c6 c7] c8]].
  flat. split_eq; ring.
Qed.

Lemma mvec_mmul : forall a b v, mvec a (mvec b v) = mvec (mmul a b) v.
Proof.
  intros [[[[a0 a1] a2] [[a3 a4] a5]] [[a6 a7] a8]]
         [[[[b0 b1] b2] [[b3 b4] b5]] [[b6 b7] b8]] [[v0 v1] v2].
  flat. split_eq; ring.
Qed.

Lemma mmul_identity_r : forall a, mmul a identity = a.
Proof.
  intros [[[[a0 a1] a2] [[a3 a4] a5]] [[a6 a7] a8]]. unfold identity. flat. split_eq; ring.
Qed.

Lemma mmul_identity_l : forall a, mmul identity a = a.
Proof.
  intros [[[[a0 a1] a2] [[a3 a4] a5]] [[a6 a7] a8]]. unfold identity. flat. split_eq; ring.
Qed.

Lemma mvec_identity : forall v, mvec identity v = v.
Proof. intros [[v0 v1] v2]. unfold identity. flat. split_eq; ring. Qed.

Lemma mvec_vscale : forall m k v, mvec m (vscale k v) = vscale k (mvec m v).
Proof.
  intros [[[[a0 a1] a2] [[a3 a4] a5]] [[a6 a7] a8]] k [[v0 v1] v2]. flat. split_eq; ring.
Qed.

Lemma det_transpose : forall a, det (transpose a) = det a.
Proof. intros [[[[a0 a1] a2] [[a3 a4] a5]] [[a6 a7] a8]]. flat. ring. Qed.

Lemma transpose_twice : forall a, transpose (transpose a) = a.
Proof. intros [[[[a0 a1] a2] [[a3 a4] a5]] [[a6 a7] a8]]. reflexivity. Qed.

Lemma inverse_left : forall m n, inverse m = Ok n -> mmul n m = identity.
Proof.
  intros m n. unfold inverse. destruct (Req_EM_T (det m) 0) as [|Hd]; [discriminate|].
  destruct m as [[[[a0 a1] a2] [[a3 a4] a5]] [[a6 a7] a8]].
  set (d := det _) in *. intro H. injection H as <-.
  assert (E : d = det (((a0, a1), a2), ((a3, a4), a5), ((a6, a7), a8))) by reflexivity.
  cbn [det dot cross] in E. clearbody d.
  set (t := / d). assert (Ht : t * d = 1) by (unfold t; field; exact Hd). clearbody t.
  unfold identity. flat. rewrite E in Ht. split_eq; try ring; rewrite <- Ht; ring.
Qed.

(** The inverse of an orthogonal matrix is its transpose. *)
Lemma inverse_orthogonal : forall m,
  mmul m (transpose m) = identity -> det m = 1 ->
  inverse m = Ok (transpose m) /\ mmul (transpose m) m = identity.
Proof.
  intros m Ho Hd.
  destruct (inverse m) as [n|e] eqn:E.
  - pose proof (inverse_left m n E) as Hl.
    assert (n = transpose m) as ->.
    { rewrite <- (mmul_identity_r n), <- Ho, mmul_assoc, Hl. apply mmul_identity_l. }
    split; [reflexivity | exact Hl].
  - exfalso. unfold inverse in E. destruct (Req_EM_T (det m) 0) as [H0|H0]; [lra|].
    destruct m as [[r0 r1] r2]. discriminate E.
Qed.

Lemma dot_nonneg : forall a, 0 <= dot a a.
Proof. intros [[a0 a1] a2]. cbn [dot]. nra. Qed.

Lemma norm_sq : forall a, norm a * norm a = dot a a.
Proof. intro a. apply sqrt_sqrt, dot_nonneg. Qed.

Lemma norm_nonneg : forall a, 0 <= norm a.
Proof. intro. apply sqrt_pos. Qed.

Lemma dot_vscale : forall k a, dot (vscale k a) (vscale k a) = k * k * dot a a.
Proof. intros k [[a0 a1] a2]. cbn [vscale dot]. ring. Qed.

Lemma normed_unit : forall v, norm v <> 0 -> dot (vscale (/ norm v) v) (vscale (/ norm v) v) = 1.
Proof.
  intros v H. rewrite dot_vscale, <- norm_sq. field. exact H.
Qed.

(** Lagrange's identity. *)
Lemma lagrange : forall a b,
  dot (cross a b) (cross a b) + dot a b * dot a b = dot a a * dot b b.
Proof. intros [[a0 a1] a2] [[b0 b1] b2]. cbn [cross dot]. ring. Qed.

(** Rodrigues' formula turns [e] into [u]. *)
Lemma rodrigues_turns : forall e u s,
  dot e e = 1 -> dot u u = 1 -> s <> 0 ->
  s * s + dot e u * dot e u = 1 ->
  mvec (rodrigues (vscale (/ s) (cross e u)) s (dot e u)) e = u.
Proof.
  intros [[e0 e1] e2] [[u0 u1] u2] s He Hu Hs H. cbn [dot] in He, Hu, H.
  set (t := / s). assert (Ht : t * s = 1) by (unfold t; field; exact Hs). clearbody t.
  unfold rodrigues, identity. flat.
  split_eq; nsatz.
Qed.

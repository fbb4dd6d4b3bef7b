(** C137: coordinates that are rotated with rounded numbers. *)
From Coq Require Import List ZArith QArith Bool Floats.SpecFloat Reals Lia Lra Psatz.
From Flocq Require Import Core Sterbenz.
From Verif Require Import Base RoundModel RoundFloatModel RoundFloatTheorems RoundExactTheorems WrapModel WrapSpec WrapTheorems
  RoundSumSpec TurnModel TurnSpec.
From Verif Require Import RotModel RotTheorems.
Import ListNotations.
Open Scope R_scope.

(** * Roundings *)
Definition apx (k : nat) (s x y : R) : Prop := Rabs (x - y) <= ((1 + u53) ^ k - 1) * s /\ Rabs y <= s.

Lemma pow_ge1 k : 1 <= (1 + u53) ^ k.
Proof. pose proof u53_small. apply pow_R1_Rle. lra. Qed.
Lemma apx_0 y : apx 0 (Rabs y) y y.
Proof. unfold apx. rewrite Rminus_diag_eq, Rabs_R0 by reflexivity. cbn [pow]. split; lra. Qed.
Lemma apx_rnd k s x y : apx k s x y -> apx (S k) s (rnd 53 x) y.
Proof.
  intros [A B]. split; [|exact B]. pose proof (rnd_error_abs x) as E. pose proof u53_small as U. pose proof (pow_ge1 k) as G.
  assert (X : Rabs x <= (1 + u53) ^ k * s).
  { replace x with ((x - y) + y) by ring. eapply Rle_trans; [apply Rabs_triang|]. lra. }
  replace (rnd 53 x - y) with ((rnd 53 x - x) + (x - y)) by ring. eapply Rle_trans; [apply Rabs_triang|].
  apply (Rmult_le_compat_r u53) in X; [|lra]. cbn [pow]. lra.
Qed.
Lemma apx_add k s x y t x' y' : apx k s x y -> apx k t x' y' -> apx k (s + t) (x + x') (y + y').
Proof.
  intros [A B] [C D]. split.
  - replace (x + x' - (y + y')) with ((x - y) + (x' - y')) by ring. eapply Rle_trans; [apply Rabs_triang|]. lra.
  - eapply Rle_trans; [apply Rabs_triang|]. lra.
Qed.
Lemma apx_mul k s m x y : apx k s x y -> apx k (Rabs m * s) (m * x) (m * y).
Proof.
  intros [A B]. pose proof (Rabs_pos m). split.
  - replace (m * x - m * y) with (m * (x - y)) by ring. rewrite Rabs_mult.
    apply (Rmult_le_compat_l (Rabs m)) in A; [|assumption]. lra.
  - rewrite Rabs_mult. apply Rmult_le_compat_l; assumption.
Qed.
Lemma apx_up k s x y : apx k s x y -> apx (S k) s x y.
Proof.
  intros [A B]. split; [|exact B]. eapply Rle_trans; [exact A|]. pose proof (Rabs_pos y). pose proof u53_small. pose proof (pow_ge1 k).
  apply Rmult_le_compat_r; [lra|]. cbn [pow]. nra.
Qed.
Lemma apx_size k s t x y : s = t -> apx k s x y -> apx k t x y.
Proof. intros ->. exact (fun H => H). Qed.

Lemma apx_sum3 k o s0 s1 s2 x0 x1 x2 y0 y1 y2 : apx k s0 x0 y0 -> apx k s1 x1 y1 -> apx k s2 x2 y2 ->
  apx (S (S k)) (s0 + s1 + s2) (sum3 rounded o x0 x1 x2) (y0 + y1 + y2).
Proof.
  intros A B C. destruct o; cbn [sum3]; change (add rounded) with (rnd2 Rplus); unfold rnd2; apply apx_rnd.
  - apply apx_add; [apply apx_rnd, apx_add; assumption|apply apx_up; assumption].
  - replace (s0 + s1 + s2) with (s0 + (s1 + s2)) by ring. replace (y0 + y1 + y2) with (y0 + (y1 + y2)) by ring.
    apply apx_add; [apply apx_up; assumption|apply apx_rnd, apx_add; assumption].
  - replace (s0 + s1 + s2) with (s0 + s2 + s1) by ring. replace (y0 + y1 + y2) with (y0 + y2 + y1) by ring.
    apply apx_add; [apply apx_rnd, apx_add; assumption|apply apx_up; assumption].
Qed.
Lemma apx_product m x c : apx 2 (Rabs m * Rabs (x - c)) (mul rounded m (sub rounded x c)) (m * (x - c)).
Proof.
  change (mul rounded) with (rnd2 Rmult). change (sub rounded) with (rnd2 Rminus). unfold rnd2.
  apply apx_rnd, apx_mul, apx_rnd, apx_0.
Qed.
Lemma apx_coordinate o m0 m1 m2 c0 c1 c2 x0 x1 x2 c :
  apx 5 (Rabs c + (Rabs m0 * Rabs (x0 - c0) + Rabs m1 * Rabs (x1 - c1) + Rabs m2 * Rabs (x2 - c2)))
    (add rounded (row_product rounded o (m0, m1, m2) (sub rounded x0 c0, sub rounded x1 c1, sub rounded x2 c2)) c)
    (m0 * (x0 - c0) + m1 * (x1 - c1) + m2 * (x2 - c2) + c).
Proof.
  change (add rounded) with (rnd2 Rplus). unfold rnd2, row_product. rewrite Rplus_comm. apply apx_rnd.
  apply apx_add; [|do 4 apply apx_up; apply apx_0]. apply apx_sum3; apply apx_product.
Qed.

(** * Theorems *)

(** Every rotated coordinate is within five roundings of the exact one, whatever the order of the sums: relative to the size
    of the centre and of the products. *)
Theorem C137_turned : forall os m0 m1 m2 center x,
  each3 (fun t e s => within_roundings u53 5 s t e) (turned rounded os (m0, m1, m2) center x)
    (rotate (m0, m1, m2) center x)
    (vadd (vabs center) (mvec (vabs m0, vabs m1, vabs m2) (vabs (vsub x center)))).
Proof.
  intros [[o0 o1] o2] [[a b] c] [[d e] f] [[g h] i] [[c0 c1] c2] [[x0 x1] x2].
  unfold turned, rotate, vadd, mvec, vsub, vabs, dot, each3, within_roundings.
  split; [|split]; apply apx_coordinate.
Qed.

Lemma five_roundings : (1 + u53) ^ 5 - 1 <= 6 * u53.
Proof.
  pose proof u53_small as U. cbn [pow]. rewrite Rmult_1_r.
  assert (H2 : u53 * u53 <= u53 * / 1000) by (apply Rmult_le_compat_l; lra).
  assert (P2 : 0 <= u53 * u53) by nra.
  assert (H3 : u53 * (u53 * u53) <= u53 * / 1000) by (apply Rmult_le_compat_l; lra).
  assert (P3 : 0 <= u53 * (u53 * u53)) by nra.
  assert (H4 : u53 * (u53 * (u53 * u53)) <= u53 * / 1000) by (apply Rmult_le_compat_l; lra).
  assert (P4 : 0 <= u53 * (u53 * (u53 * u53))) by nra.
  assert (H5 : u53 * (u53 * (u53 * (u53 * u53))) <= u53 * / 1000) by (apply Rmult_le_compat_l; lra).
  lra.
Qed.

(** * Distances *)
Lemma dot_self v : 0 <= dot v v.
Proof. destruct v as [[a b] c]. unfold dot. nra. Qed.
Lemma norm_sq v : norm v * norm v = dot v v.
Proof. unfold norm. apply sqrt_sqrt, dot_self. Qed.
Lemma norm_pos v : 0 <= norm v.
Proof. apply sqrt_pos. Qed.
Lemma le_of_sq a b : 0 <= b -> a * a <= b * b -> a <= b.
Proof. intros H K. destruct (Rle_or_lt a b) as [|L]; [assumption|]. exfalso. assert (b * b < a * a) by nra. lra. Qed.
Lemma cauchy r d : dot r d * dot r d <= dot r r * dot d d.
Proof.
  destruct r as [[a b] c], d as [[x y] z]. unfold dot.
  assert (0 <= (a * y - b * x) * (a * y - b * x)) by apply Rle_0_sqr.
  assert (0 <= (a * z - c * x) * (a * z - c * x)) by apply Rle_0_sqr.
  assert (0 <= (b * z - c * y) * (b * z - c * y)) by apply Rle_0_sqr. lra.
Qed.
Lemma abs_sq x : Rabs x * Rabs x = x * x.
Proof. rewrite <- Rabs_mult. apply Rabs_pos_eq. nra. Qed.
Lemma dot_vabs v : dot (vabs v) (vabs v) = dot v v.
Proof. destruct v as [[a b] c]. unfold dot, vabs. rewrite !abs_sq. reflexivity. Qed.
Lemma row_le r d : dot r r = 1 -> dot (vabs r) (vabs d) <= norm d.
Proof.
  intro H. apply le_of_sq; [apply norm_pos|]. rewrite norm_sq. pose proof (cauchy (vabs r) (vabs d)) as C.
  rewrite !dot_vabs, H in C. lra.
Qed.
Lemma sum_le d : dot (1, 1, 1) (vabs d) <= 2 * norm d.
Proof.
  pose proof (norm_pos d). apply le_of_sq; [lra|]. pose proof (cauchy (1, 1, 1) (vabs d)) as C. rewrite dot_vabs in C.
  pose proof (norm_sq d) as N. pose proof (dot_self d). assert (dot (1, 1, 1) (1, 1, 1) = 3) as E by (unfold dot; ring). rewrite E in C. nra.
Qed.
Lemma coord_le v : each2 (fun x _ => Rabs x <= norm v) v v.
Proof.
  pose proof (norm_sq v) as N. pose proof (norm_pos v) as P. destruct v as [[a b] c]. unfold each2. set (n := norm (a, b, c)) in *. unfold dot in N.
  split; [|split]; apply le_of_sq; try assumption; rewrite abs_sq; nra.
Qed.
Lemma norm_triangle v w : norm (vadd v w) <= norm v + norm w.
Proof.
  pose proof (norm_pos v). pose proof (norm_pos w). apply le_of_sq; [lra|].
  assert (C : dot v w <= norm v * norm w).
  { apply le_of_sq; [nra|]. pose proof (cauchy v w) as C. rewrite <- !norm_sq in C. nra. }
  replace ((norm v + norm w) * (norm v + norm w)) with (norm v * norm v + norm w * norm w + 2 * (norm v * norm w)) by ring.
  rewrite !norm_sq. destruct v as [[a b] c], w as [[x y] z]. unfold dot, vadd in *. lra.
Qed.
Lemma far_norm v w : far v w = norm (vsub v w).
Proof. destruct v as [[a b] c], w as [[x y] z]. reflexivity. Qed.
Lemma norm_within E v : 0 <= E -> each2 (fun x _ => Rabs x <= E) v v -> norm v <= 2 * E.
Proof.
  intros H B. apply le_of_sq; [lra|]. rewrite norm_sq, <- dot_vabs. destruct v as [[a b] c]. destruct B as (B0 & B1 & B2). unfold dot, vabs.
  pose proof (Rabs_pos a). pose proof (Rabs_pos b). pose proof (Rabs_pos c).
  assert (Rabs a * Rabs a <= E * E) by (apply Rmult_le_compat; assumption).
  assert (Rabs b * Rabs b <= E * E) by (apply Rmult_le_compat; assumption).
  assert (Rabs c * Rabs c <= E * E) by (apply Rmult_le_compat; assumption). nra.
Qed.

Lemma rows_unit q0 q1 q2 : orthogonal (q0, q1, q2) -> dot q0 q0 = 1 /\ dot q1 q1 = 1 /\ dot q2 q2 = 1.
Proof.
  intros [H _]. destruct q0 as [[a b] c], q1 as [[d e] f], q2 as [[g h] i].
  unfold mmul, transpose, identity, dot in *. injection H as. lra.
Qed.
Lemma orthogonal_transpose m : orthogonal m -> orthogonal (transpose m).
Proof.
  intros [A B]. unfold orthogonal. assert (T : transpose (transpose m) = m) by (destruct m as [[[[a b] c] [[d e] f]] [[g h] i]]; reflexivity).
  rewrite T. split; assumption.
Qed.
Lemma norm_mvec m v : orthogonal m -> norm (mvec m v) = norm v.
Proof.
  intros [_ H]. unfold norm. f_equal. destruct m as [[[[a b] c] [[d e] f]] [[g h] i]], v as [[x y] z].
  unfold mmul, transpose, identity, mvec, dot in *. injection H as H1 H2 H3 H4 H5 H6 H7 H8 H9.
  transitivity ((a * a + d * d + g * g) * (x * x) + (b * b + e * e + h * h) * (y * y) + (c * c + f * f + i * i) * (z * z)
    + 2 * (a * b + d * e + g * h) * (x * y) + 2 * (a * c + d * f + g * i) * (x * z) + 2 * (b * c + e * f + h * i) * (y * z)); [ring|].
  rewrite H1, H5, H9, H2, H3, H6. ring.
Qed.
Lemma back_again m v : orthogonal m -> mvec (transpose m) (mvec m v) = v.
Proof.
  intros [_ H]. destruct m as [[[[a b] c] [[d e] f]] [[g h] i]], v as [[x y] z].
  unfold mmul, transpose, identity, mvec, dot in *. injection H as H1 H2 H3 H4 H5 H6 H7 H8 H9.
  f_equal; [f_equal|].
  - transitivity ((a * a + d * d + g * g) * x + (a * b + d * e + g * h) * y + (a * c + d * f + g * i) * z); [ring|]. rewrite H1, H2, H3. ring.
  - transitivity ((b * a + e * d + h * g) * x + (b * b + e * e + h * h) * y + (b * c + e * f + h * i) * z); [ring|]. rewrite H4, H5, H6. ring.
  - transitivity ((c * a + f * d + i * g) * x + (c * b + f * e + i * h) * y + (c * c + f * f + i * i) * z); [ring|]. rewrite H7, H8, H9. ring.
Qed.

(** One coordinate with a row that is off by [e]. *)
Lemma one_coordinate e o m q c d0 d1 d2 t :
  0 <= e -> dot q q = 1 -> each2 (fun a b => Rabs (a - b) <= e) m q ->
  within_roundings u53 5 (Rabs c + dot (vabs m) (vabs (d0, d1, d2))) t (dot m (d0, d1, d2) + c) ->
  o = norm (d0, d1, d2) ->
  Rabs (t - (dot q (d0, d1, d2) + c)) <= slack e (Rabs c) o.
Proof.
  intros He Q M W ->. set (d := (d0, d1, d2)) in *. pose proof u53_small as U. pose proof (norm_pos d) as N. pose proof (Rabs_pos c) as C.
  pose proof (row_le q d Q) as R1. pose proof (sum_le d) as R2. pose proof five_roundings as F. pose proof (pow_ge1 5) as G.
  assert (D : Rabs (dot m d - dot q d) <= e * dot (1, 1, 1) (vabs d) /\ dot (vabs m) (vabs d) <= dot (vabs q) (vabs d) + e * dot (1, 1, 1) (vabs d)
              /\ 0 <= dot (vabs m) (vabs d)).
  { subst d. destruct m as [[a b] f], q as [[g h] i]. destruct M as (M0 & M1 & M2). unfold dot, vabs.
    pose proof (Rabs_pos d0) as P0. pose proof (Rabs_pos d1) as P1. pose proof (Rabs_pos d2) as P2.
    pose proof (Rmult_le_compat_r _ _ _ P0 M0) as K0. pose proof (Rmult_le_compat_r _ _ _ P1 M1) as K1. pose proof (Rmult_le_compat_r _ _ _ P2 M2) as K2.
    assert (T : forall x y, Rabs x <= Rabs y + Rabs (x - y)).
    { intros x y. replace x with (y + (x - y)) at 1 by ring. apply Rabs_triang. }
    pose proof (Rmult_le_compat_r _ _ _ P0 (T a g)) as T0. pose proof (Rmult_le_compat_r _ _ _ P1 (T b h)) as T1. pose proof (Rmult_le_compat_r _ _ _ P2 (T f i)) as T2.
    split; [|split].
    - replace (a * d0 + b * d1 + f * d2 - (g * d0 + h * d1 + i * d2)) with ((a - g) * d0 + (b - h) * d1 + (f - i) * d2) by ring.
      eapply Rle_trans; [apply Rabs_triang|]. pose proof (Rabs_triang ((a - g) * d0) ((b - h) * d1)). rewrite !Rabs_mult in *. lra.
    - lra.
    - pose proof (Rmult_le_pos _ _ (Rabs_pos a) P0). pose proof (Rmult_le_pos _ _ (Rabs_pos b) P1). pose proof (Rmult_le_pos _ _ (Rabs_pos f) P2). lra. }
  destruct D as (D1 & D2 & D3). unfold within_roundings in W.
  assert (K : e * dot (1, 1, 1) (vabs d) <= 2 * e * norm d).
  { apply (Rmult_le_compat_l e) in R2; [|exact He]. lra. }
  replace (t - (dot q d + c)) with ((t - (dot m d + c)) + (dot m d - dot q d)) by ring. eapply Rle_trans; [apply Rabs_triang|].
  unfold slack.
  assert (X : ((1 + u53) ^ 5 - 1) * (Rabs c + dot (vabs m) (vabs d)) <= 6 * u53 * (Rabs c + (1 + 2 * e) * norm d)).
  { apply Rmult_le_compat; lra. }
  lra.
Qed.

(** A matrix that is off from an orthogonal one (C45) by at most [e] in each entry turns coordinates to within [slack] of the
    exact rotation. *)
Theorem C137_rotation : forall os m q center x e, 0 <= e -> orthogonal q -> mat_near e m q ->
  each3 (fun t r c => Rabs (t - r) <= slack e (Rabs c) (far x center)) (turned rounded os m center x) (rotate q center x) center.
Proof.
  intros os [[m0 m1] m2] [[q0 q1] q2] center x e He Q (M0 & M1 & M2). destruct (rows_unit _ _ _ Q) as (U0 & U1 & U2).
  cut (forall t : vec, each3 (fun t e s => within_roundings u53 5 s t e) t (rotate (m0, m1, m2) center x)
      (vadd (vabs center) (mvec (vabs m0, vabs m1, vabs m2) (vabs (vsub x center)))) ->
    each3 (fun t r c => Rabs (t - r) <= slack e (Rabs c) (far x center)) t (rotate (q0, q1, q2) center x) center);
    [intro G; exact (G _ (C137_turned os m0 m1 m2 center x))|].
  intros [[t0 t1] t2]. destruct center as [[c0 c1] c2], x as [[x0 x1] x2]. rewrite far_norm.
  unfold rotate, vadd, mvec, each3. cbn [vsub vabs]. intros (W0 & W1 & W2).
  split; [|split].
  - exact (one_coordinate e _ m0 q0 c0 _ _ _ t0 He U0 M0 W0 eq_refl).
  - exact (one_coordinate e _ m1 q1 c1 _ _ _ t1 He U1 M1 W1 eq_refl).
  - exact (one_coordinate e _ m2 q2 c2 _ _ _ t2 He U2 M2 W2 eq_refl).
Qed.

Lemma slack_mono e c c' n n' : 0 <= e -> c <= c' -> n <= n' -> slack e c n <= slack e c' n'.
Proof.
  intros He Hc Hn. pose proof u53_small. unfold slack.
  assert ((1 + 2 * e) * n <= (1 + 2 * e) * n') by (apply Rmult_le_compat_l; lra).
  assert (6 * u53 * (c + (1 + 2 * e) * n) <= 6 * u53 * (c' + (1 + 2 * e) * n')) by (apply Rmult_le_compat_l; lra).
  assert (2 * e * n <= 2 * e * n') by (apply Rmult_le_compat_l; lra). lra.
Qed.
Lemma slack_pos e c n : 0 <= e -> 0 <= c -> 0 <= n -> 0 <= slack e c n.
Proof. intros. pose proof (slack_mono e 0 c 0 n ltac:(assumption) ltac:(assumption) ltac:(assumption)) as K. unfold slack at 1 in K. lra. Qed.
Lemma far_origin c : far c origin = norm c.
Proof. destruct c as [[a b] c]. unfold far, origin, norm, dot. f_equal. ring. Qed.

(** The point itself is close to the exactly rotated one, so that its distance to the centre changes by little. *)
Theorem C137_distance : forall os m q center x e, 0 <= e -> orthogonal q -> mat_near e m q ->
  let E := slack e (far center origin) (far x center) in
  far (turned rounded os m center x) (rotate q center x) <= 2 * E /\
  Rabs (far (turned rounded os m center x) center - far x center) <= 2 * E.
Proof.
  intros os m q center x e He Q M E. pose proof (C137_rotation os m q center x e He Q M) as W.
  assert (E0 : 0 <= E) by (apply slack_pos; [exact He|rewrite far_origin; apply norm_pos|rewrite far_norm; apply norm_pos]).
  set (t := turned rounded os m center x) in *. set (r := rotate q center x) in *.
  assert (A : far t r <= 2 * E).
  { rewrite far_norm. apply norm_within; [exact E0|]. pose proof (coord_le center) as CL. subst E. rewrite far_origin. clearbody t r.
    destruct t as [[t0 t1] t2], r as [[r0 r1] r2], center as [[c0 c1] c2]. destruct W as (W0 & W1 & W2), CL as (C0 & C1 & C2). unfold vsub, each2.
    split; [|split]; (eapply Rle_trans; [eassumption|]); apply slack_mono; try assumption; apply Rle_refl. }
  split; [exact A|].
  assert (B : far r center = far x center).
  { rewrite !far_norm. rewrite <- (norm_mvec q (vsub x center) Q). f_equal. subst r. unfold rotate.
    destruct (mvec q (vsub x center)) as [[a b] c], center as [[c0 c1] c2]. unfold vadd, vsub. f_equal; [f_equal|]; ring. }
  rewrite <- B. rewrite !far_norm in *. clearbody t r.
  assert (V : forall u v w, norm (vsub u w) <= norm (vsub u v) + norm (vsub v w)).
  { intros u v w. replace (vsub u w) with (vadd (vsub u v) (vsub v w)); [apply norm_triangle|].
    destruct u as [[u0 u1] u2], v as [[v0 v1] v2], w as [[w0 w1] w2]. unfold vadd, vsub. f_equal; [f_equal|]; ring. }
  assert (Y : norm (vsub r t) = norm (vsub t r)).
  { unfold norm. f_equal. destruct t as [[t0 t1] t2], r as [[r0 r1] r2]. unfold vsub, dot. ring. }
  pose proof (V t r center) as V1. pose proof (V r t center) as V2. apply Rabs_le. lra.
Qed.

Lemma mat_near_transpose e m q : mat_near e m q -> mat_near e (transpose m) (transpose q).
Proof.
  destruct m as [[[[a b] c] [[d e'] f]] [[g h] i]], q as [[[[a' b'] c'] [[d' e''] f']] [[g' h'] i']].
  unfold mat_near, transpose, each2. tauto.
Qed.

(** Rotating back with the transposed matrix gives the coordinates again, to within the two errors. *)
Theorem C137_back : forall os os' m q center x e, 0 <= e -> orthogonal q -> mat_near e m q ->
  let E := slack e (far center origin) (far x center) in
  far (turned rounded os' (transpose m) center (turned rounded os m center x)) x
    <= 2 * E + 2 * slack e (far center origin) (far x center + 2 * E).
Proof.
  intros os os' m q center x e He Q M E.
  destruct (C137_distance os m q center x e He Q M) as [A1 A2]. fold E in A1, A2.
  set (t := turned rounded os m center x) in *.
  destruct (C137_distance os' (transpose m) (transpose q) center t e He (orthogonal_transpose q Q) (mat_near_transpose e m q M)) as [B1 _].
  set (s := turned rounded os' (transpose m) center t) in *. clearbody s t.
  assert (T : far t center <= far x center + 2 * E) by (apply Rabs_le_inv in A2; lra).
  assert (K : slack e (far center origin) (far t center) <= slack e (far center origin) (far x center + 2 * E))
    by (apply slack_mono; [exact He|apply Rle_refl|exact T]).
  assert (X : far (rotate (transpose q) center t) x = far t (rotate q center x)).
  { rewrite !far_norm. rewrite <- (norm_mvec (transpose q) (vsub t (rotate q center x)) (orthogonal_transpose q Q)). f_equal.
    assert (L : forall v w, mvec (transpose q) (vsub v w) = vsub (mvec (transpose q) v) (mvec (transpose q) w)).
    { intros [[v0 v1] v2] [[w0 w1] w2]. destruct q as [[[[a b] c] [[d e'] f]] [[g h] i]]. unfold mvec, transpose, vsub, dot. f_equal; [f_equal|]; ring. }
    assert (V : vsub t (rotate q center x) = vsub (vsub t center) (mvec q (vsub x center))).
    { unfold rotate. destruct t as [[t0 t1] t2], center as [[c0 c1] c2], (mvec q (vsub x (c0, c1, c2))) as [[r0 r1] r2]. unfold vadd, vsub. f_equal; [f_equal|]; ring. }
    rewrite V, L, (back_again q _ Q). unfold rotate. destruct (mvec (transpose q) (vsub t center)) as [[r0 r1] r2], center as [[c0 c1] c2], x as [[x0 x1] x2].
    unfold vadd, vsub. f_equal; [f_equal|]; ring. }
  rewrite !far_norm in *.
  assert (V : forall u v w, norm (vsub u w) <= norm (vsub u v) + norm (vsub v w)).
  { intros u v w. replace (vsub u w) with (vadd (vsub u v) (vsub v w)); [apply norm_triangle|].
    destruct u as [[u0 u1] u2], v as [[v0 v1] v2], w as [[w0 w1] w2]. unfold vadd, vsub. f_equal; [f_equal|]; ring. }
  pose proof (V s (rotate (transpose q) center t) x) as V1. lra.
Qed.

Lemma rnd_number x : double_number x -> rnd 53 x = x.
Proof. intro H. apply round_generic; [apply valid_rnd_N|exact H]. Qed.

(** The centre of the rotation stays where it is, exactly, whatever the matrix. *)
Theorem C137_centre : forall os m center, double_vec center -> turned rounded os m center center = center.
Proof.
  intros [[o0 o1] o2] [[[[a b] c] [[d e] f]] [[g h] i]] [[c0 c1] c2] (D0 & D1 & D2). unfold turned.
  assert (S0 : forall y, sub rounded y y = 0). { intro y. change (sub rounded y y) with (rnd 53 (y - y)). rewrite Rminus_diag_eq by reflexivity. apply rnd_0. }
  rewrite !S0. assert (P : forall o r0 r1 r2, row_product rounded o (r0, r1, r2) (0, 0, 0) = 0).
  { intros o r0 r1 r2. unfold row_product. assert (M : forall r, mul rounded r 0 = 0). { intro r. change (mul rounded r 0) with (rnd 53 (r * 0)). rewrite Rmult_0_r. apply rnd_0. }
    rewrite !M. assert (Z0 : add rounded 0 0 = 0). { change (add rounded 0 0) with (rnd 53 (0 + 0)). rewrite Rplus_0_r. apply rnd_0. }
    destruct o; cbn [sum3]; rewrite !Z0; reflexivity. }
  rewrite !P. assert (Z1 : forall y, double_number y -> add rounded 0 y = y).
  { intros y H. change (add rounded 0 y) with (rnd 53 (0 + y)). rewrite Rplus_0_l. apply rnd_number. exact H. }
  rewrite !Z1 by assumption. reflexivity.
Qed.

(** The identity matrix rounds twice, ... *)
Lemma turned_identity os c0 c1 c2 x0 x1 x2 :
  turned rounded os identity (c0, c1, c2) (x0, x1, x2)
    = (rnd 53 (rnd 53 (x0 - c0) + c0), rnd 53 (rnd 53 (x1 - c1) + c1), rnd 53 (rnd 53 (x2 - c2) + c2)).
Proof.
  destruct os as [[o0 o1] o2]. unfold turned, identity, row_product. change (sub rounded) with (rnd2 Rminus). unfold rnd2.
  assert (M : forall y, mul rounded 1 (rnd 53 y) = rnd 53 y).
  { intro y. change (mul rounded 1 (rnd 53 y)) with (rnd 53 (1 * rnd 53 y)). rewrite Rmult_1_l. apply rnd_number.
    apply generic_format_round; [apply FLX_exp_valid; reflexivity|apply valid_rnd_N]. }
  assert (M0 : forall y, mul rounded 0 y = 0). { intro y. change (mul rounded 0 y) with (rnd 53 (0 * y)). rewrite Rmult_0_l. apply rnd_0. }
  assert (A0 : forall y, add rounded (rnd 53 y) 0 = rnd 53 y).
  { intro y. change (add rounded (rnd 53 y) 0) with (rnd 53 (rnd 53 y + 0)). rewrite Rplus_0_r. apply rnd_number.
    apply generic_format_round; [apply FLX_exp_valid; reflexivity|apply valid_rnd_N]. }
  assert (A1 : forall y, add rounded 0 (rnd 53 y) = rnd 53 y).
  { intro y. change (add rounded 0 (rnd 53 y)) with (rnd 53 (0 + rnd 53 y)). rewrite Rplus_0_l. apply rnd_number.
    apply generic_format_round; [apply FLX_exp_valid; reflexivity|apply valid_rnd_N]. }
  assert (Z0 : add rounded 0 0 = 0). { change (add rounded 0 0) with (rnd 53 (0 + 0)). rewrite Rplus_0_r. apply rnd_0. }
  rewrite !M, !M0.
  destruct o0, o1, o2; cbn [sum3]; repeat rewrite ?A0, ?A1, ?Z0; reflexivity.
Qed.

(** ... so that coordinates stay exactly where they are around the origin, or if they are between half of and twice the
    centre's coordinate, ... *)
Theorem C137_identity : forall os center x, double_vec center -> double_vec x ->
  each2 (fun a c => c = 0 \/ (/ 2 * c <= a <= 2 * c)) x center ->
  turned rounded os identity center x = x.
Proof.
  intros os [[c0 c1] c2] [[x0 x1] x2] (C0 & C1 & C2) (X0 & X1 & X2) (H0 & H1 & H2). rewrite turned_identity.
  assert (K : forall a c, double_number a -> double_number c -> c = 0 \/ (/ 2 * c <= a <= 2 * c) -> rnd 53 (rnd 53 (a - c) + c) = a).
  { intros a c A C [->|H].
    - rewrite Rminus_0_r, Rplus_0_r. rewrite (rnd_number a A). apply rnd_number. exact A.
    - assert (D : double_number (a - c)).
      { apply sterbenz; [apply FLX_exp_valid; reflexivity|apply FLX_exp_monotone|exact A|exact C|lra]. }
      rewrite (rnd_number _ D). replace (a - c + c) with a by ring. apply rnd_number. exact A. }
  rewrite !K by assumption. reflexivity.
Qed.
(** ... and not otherwise: 0.1 around the centre 1 becomes 0.09999999999999998. *)
Theorem C137_identity_refuted : exists x center : fvec ieee,
  let identity := ((dbl 1 0, dbl 0 0, dbl 0 0), (dbl 0 0, dbl 1 0, dbl 0 0), (dbl 0 0, dbl 0 0, dbl 1 0)) in
  let '(t0, t1, t2) := turned ieee (First_two, First_two, First_two) identity center x in
  let '(x0, x1, x2) := x in
  SFltb t0 x0 = true /\ SFeqb t1 x1 = true /\ SFeqb t2 x2 = true.
Proof.
  exists (lit ieee (1 # 10), dbl 1 0, dbl 3 (-1)), (dbl 1 0, dbl 1 0, dbl 1 0). cbv zeta. cbn [turned].
  repeat match goal with |- _ /\ _ => split end; vm_compute; reflexivity.
Qed.

(** Which of the rotated particles are in the depth of a region: all those further than [slack] inside, none further than
    that outside. *)
Theorem C137_depth : forall os m q center x e L z0 z1, 0 <= e -> orthogonal q -> mat_near e m q ->
  let E := slack e (far center origin) (far x center) in
  let depth (v : vec) := let '(_, _, z) := v in z in
  (z0 + E <= depth (rotate q center x) <= z1 - E -> kept_depth rounded false L z0 z1 (depth (turned rounded os m center x)) = true) /\
  (kept_depth rounded false L z0 z1 (depth (turned rounded os m center x)) = true -> z0 - E <= depth (rotate q center x) <= z1 + E).
Proof.
  intros os m q center x e L z0 z1 He Q M E depth. pose proof (C137_rotation os m q center x e He Q M) as W.
  assert (D : Rabs (depth (turned rounded os m center x) - depth (rotate q center x)) <= E).
  { pose proof (coord_le center) as CL. subst E. rewrite far_origin. set (t := turned rounded os m center x) in *. set (r := rotate q center x) in *. clearbody t r.
    destruct t as [[t0 t1] t2], r as [[r0 r1] r2], center as [[c0 c1] c2]. destruct W as (_ & _ & W2), CL as (_ & _ & C2). unfold depth.
    eapply Rle_trans; [exact W2|]. apply slack_mono; [exact He|exact C2|apply Rle_refl]. }
  apply Rabs_le_inv in D. unfold kept_depth. split; intro H.
  - apply andb_true_iff. split; apply leb_R; lra.
  - apply andb_true_iff in H. destruct H as [H1 H2]. apply leb_R in H1. apply leb_R in H2. lra.
Qed.

(** With exact numbers the model is that of RotModel.v. *)
Theorem C137_exact : forall os m center x, turned exact os m center x = rotate m center x.
Proof.
  intros [[o0 o1] o2] [[[[a b] c] [[d e] f]] [[g h] i]] [[c0 c1] c2] [[x0 x1] x2].
  unfold turned, rotate, vadd, mvec, vsub, dot, row_product.
  assert (S3 : forall o u v w, sum3 exact o u v w = u + v + w).
  { intros o u v w. change R in u, v, w. destruct o; cbn [sum3]; change (add exact) with Rplus; match goal with |- ?a = ?b => change (@eq R a b) end; ring. }
  rewrite !S3. reflexivity.
Qed.

(** * Concrete cases *)

(** A quarter turn around the z axis: an exactly orthogonal matrix, close to the source's with exact cosines. *)
Example C137_case :
  orthogonal ((0, -1, 0), (1, 0, 0), (0, 0, 1)) /\
  mat_near (/ 10) ((/ 20, -1, 0), (1, / 10, 0), (0, 0, 1)) ((0, -1, 0), (1, 0, 0), (0, 0, 1)) /\
  rotate ((0, -1, 0), (1, 0, 0), (0, 0, 1)) (1, 1, 1) (2, 1, 5) = (1, 2, 5) /\
  double_vec (1, 1, 0) /\ double_vec (2, 1, 5) /\
  each2 (fun a c => c = 0 \/ (/ 2 * c <= a <= 2 * c)) (2, 1, 5) (1, 1, 0) /\
  slack 0 1 1 <= / 10 ^ 14.
Proof.
  unfold orthogonal, mat_near. cbv zeta. repeat match goal with |- _ /\ _ => split end.
  - unfold mmul, transpose, identity, dot. repeat match goal with |- (_, _) = (_, _) => apply (f_equal2 pair) end; ring.
  - unfold mmul, transpose, identity, dot. repeat match goal with |- (_, _) = (_, _) => apply (f_equal2 pair) end; ring.
  - unfold each2. repeat match goal with |- _ /\ _ => split end; apply Rabs_le; lra.
  - unfold each2. repeat match goal with |- _ /\ _ => split end; apply Rabs_le; lra.
  - unfold each2. repeat match goal with |- _ /\ _ => split end; apply Rabs_le; lra.
  - unfold rotate, vadd, mvec, vsub, dot. f_equal; [f_equal|]; ring.
  - unfold double_vec, each2. split; [|split]; [apply (int_format 53 1)|apply (int_format 53 1)|apply (int_format 53 0)]; lia.
  - unfold double_vec, each2. split; [|split]; [apply (int_format 53 2)|apply (int_format 53 1)|apply (int_format 53 5)]; lia.
  - unfold each2. split; [|split]; [right|right|left]; lra.
  - unfold slack, u53. lra.
Qed.

(** The same turn with doubles; a point near the centre, and the centre itself. *)
Example C137_float_case :
  let matrix := ((dbl 0 0, dbl (-1) 0, dbl 0 0), (dbl 1 0, dbl 0 0, dbl 0 0), (dbl 0 0, dbl 0 0, dbl 1 0)) in
  let center := (lit ieee (1 # 10), lit ieee (1 # 5), lit ieee (3 # 10)) in
  turned ieee (Last_two, First_two, Outer_two) matrix center center = center /\
  turned ieee (First_two, Outer_two, Last_two) matrix (dbl 1 0, dbl 1 0, dbl 1 0) (dbl 2 0, dbl 1 0, dbl 5 0) = (dbl 1 0, dbl 2 0, dbl 5 0).
Proof. cbv zeta. split; vm_compute; reflexivity. Qed.

Print Assumptions C137_turned.
Print Assumptions C137_rotation.
Print Assumptions C137_distance.
Print Assumptions C137_back.
Print Assumptions C137_centre.
Print Assumptions C137_identity.
Print Assumptions C137_identity_refuted.
Print Assumptions C137_depth.
Print Assumptions C137_exact.

(** C133: the kernels computed with rounded numbers.

    [RoundModel.kernel2] and [RoundModel.kernel3] are the kernels of the sources written over an arithmetic; here the
    arithmetic rounds every operation to double precision, in the order of the source (numba may reorder with
    [fastmath]).  They are compared with the kernels of exact arithmetic ([VisModel.kernel2], [VisModel.kernel3]). *)
From Coq Require Import ZArith QArith Bool Floats.SpecFloat Reals Lia Lra Psatz Qreals.
From Flocq Require Import Core.
From Verif Require Import Base RoundModel RoundFloatModel RoundFloatTheorems WrapSpec WrapTheorems.
From Verif Require VisModel.
Open Scope R_scope.

(** * Products of roundings *)

(** [t] is a product of at most [n] factors that each differ from one by at most half a unit of the last place. *)
Definition fac (n : nat) (t : R) : Prop := (1 - u53) ^ n <= t <= (1 + u53) ^ n.

Lemma pow_le_1 x n : 0 <= x <= 1 -> x ^ n <= 1.
Proof. intro H. apply Rle_trans with (1 ^ n); [apply pow_incr; exact H|rewrite pow1; lra]. Qed.
Lemma fac_pos n t : fac n t -> 0 < t.
Proof.
  intros [A _]. pose proof u53_small. assert (0 < (1 - u53) ^ n) by (apply pow_lt; lra). lra.
Qed.
Lemma fac_mult n m s t : fac n s -> fac m t -> fac (n + m) (s * t).
Proof.
  intros A B. pose proof (fac_pos _ _ A). pose proof (fac_pos _ _ B). destruct A as [A1 A2], B as [B1 B2].
  pose proof u53_small. unfold fac. rewrite !pow_add.
  assert (0 < (1 - u53) ^ n) by (apply pow_lt; lra). assert (0 < (1 - u53) ^ m) by (apply pow_lt; lra).
  split; apply Rmult_le_compat; lra.
Qed.
Lemma fac_mono n m t : (n <= m)%nat -> fac n t -> fac m t.
Proof.
  intros L [A B]. pose proof u53_small. replace m with (n + (m - n))%nat by lia. unfold fac. rewrite !pow_add.
  assert (0 < (1 - u53) ^ n) by (apply pow_lt; lra). assert (0 < (1 + u53) ^ n) by (apply pow_lt; lra).
  assert (P : (1 - u53) ^ (m - n) <= 1).
  { apply pow_le_1. lra. }
  assert (Q : 1 <= (1 + u53) ^ (m - n)) by (apply pow_R1_Rle; lra).
  split; nra.
Qed.
Lemma fac_rnd x : 0 <= x -> exists t, fac 1 t /\ rnd 53 x = x * t.
Proof.
  intro H. pose proof u53_small. pose proof (rnd_error_abs x) as E. rewrite (Rabs_pos_eq x H) in E.
  destruct (Req_dec x 0) as [->|N].
  - exists 1. split; [unfold fac; lra|]. rewrite rnd_0. ring.
  - exists (rnd 53 x / x). split; [|field; exact N]. apply Rabs_le_inv in E. assert (P : 0 < x) by lra.
    assert (I : 0 < / x) by (apply Rinv_0_lt_compat; exact P). assert (V : x * / x = 1) by (field; exact N).
    unfold fac, Rdiv. rewrite !pow_1. split; nra.
Qed.
Lemma fac_sum n y t : 0 <= y -> fac n t -> exists s, fac n s /\ 1 + y * t = (1 + y) * s.
Proof.
  intros Y F. pose proof u53_small. destruct F as [A B].
  assert (P : (1 - u53) ^ n <= 1) by (apply pow_le_1; lra).
  assert (Q : 1 <= (1 + u53) ^ n) by (apply pow_R1_Rle; lra).
  exists ((1 + y * t) / (1 + y)). split; [|field; lra].
  assert (I : 0 < / (1 + y)) by (apply Rinv_0_lt_compat; lra). assert (V : (1 + y) * / (1 + y) = 1) by (field; lra).
  unfold fac, Rdiv. split.
  - replace ((1 - u53) ^ n) with ((1 - u53) ^ n * ((1 + y) * / (1 + y))) by (rewrite V; ring).
    rewrite <- Rmult_assoc. apply Rmult_le_compat_r; [lra|]. nra.
  - replace ((1 + u53) ^ n) with ((1 + u53) ^ n * ((1 + y) * / (1 + y))) by (rewrite V; ring).
    rewrite <- Rmult_assoc. apply Rmult_le_compat_r; [lra|]. nra.
Qed.
Lemma fac_error n t : (n <= 24)%nat -> fac n t -> Rabs (t - 1) <= 26 * u53.
Proof.
  intros L F. apply (fac_mono n 24 t L) in F. destruct F as [A B]. pose proof u53_small as U.
  assert (L1 : 1 - 24 * u53 <= (1 - u53) ^ 24).
  { assert (G : forall k, 1 - INR k * u53 <= (1 - u53) ^ k /\ (1 - u53) ^ k <= 1).
    { induction k as [|k [I1 I2]]; [cbn; lra|]. rewrite S_INR. cbn [pow].
      assert (0 <= (1 - u53) ^ k) by (apply pow_le; lra). split; nra. }
    destruct (G 24%nat) as [G1 _]. replace (INR 24) with 24 in G1 by (cbn; lra). exact G1. }
  assert (L2 : (1 + u53) ^ 24 <= 1 + 26 * u53).
  { assert (S3 : (1 + u53) ^ 3 <= 1 + (301 / 100) * u53) by (cbn [pow]; nra).
    assert (D : forall a b x, 0 <= x -> x <= 1 + a * u53 -> 0 < a -> 2 * a + a * a / 1000 <= b -> x * x <= 1 + b * u53).
    { intros a b x X0 X Pa B0. apply Rle_trans with ((1 + a * u53) * (1 + a * u53)); [apply Rmult_le_compat; lra|].
      assert (a * a * u53 <= a * a / 1000) by nra. nra. }
    replace ((1 + u53) ^ 24) with
      (((1 + u53) ^ 3 * (1 + u53) ^ 3) * ((1 + u53) ^ 3 * (1 + u53) ^ 3) *
       (((1 + u53) ^ 3 * (1 + u53) ^ 3) * ((1 + u53) ^ 3 * (1 + u53) ^ 3))) by ring.
    set (c := (1 + u53) ^ 3) in *. assert (C : 0 < c) by (apply pow_lt; lra). clearbody c.
    assert (C2 : c * c <= 1 + (604 / 100) * u53) by (apply (D (301 / 100)); lra).
    assert (C4 : (c * c) * (c * c) <= 1 + (1213 / 100) * u53) by (apply (D (604 / 100)); try lra; nra).
    apply (D (1213 / 100)); try lra. apply Rmult_le_pos; apply Rmult_le_pos; lra. }
  apply Rabs_le. lra.
Qed.

(** * The shape of the kernels *)

(** The shape without its sharp edge. *)
Definition shape (q : R) : R := (1 - q) ^ 4 * (1 + 4 * q).
Definition cut_shape (q : R) : R := if Rlt_dec q 1 then shape q else 0.

Lemma shape_bound q : 0 <= q <= 1 -> 0 <= shape q <= 1.
Proof.
  intro H. unfold shape. assert (P : 0 <= (1 - q) ^ 2) by (apply pow2_ge_0).
  assert (C : 0 <= (1 - q) ^ 2 * (1 + 2 * q) <= 1) by (split; [apply Rmult_le_pos; lra|cbn [pow]; nra]).
  replace ((1 - q) ^ 4) with ((1 - q) ^ 2 * (1 - q) ^ 2) by ring. set (s := (1 - q) ^ 2) in *. clearbody s.
  assert (S2 : 0 <= s * s) by nra.
  split; [apply Rmult_le_pos; lra|].
  apply Rle_trans with (s * (1 + 2 * q) * (s * (1 + 2 * q))); [|nra].
  replace (s * (1 + 2 * q) * (s * (1 + 2 * q))) with (s * s * ((1 + 2 * q) * (1 + 2 * q))) by ring.
  apply Rmult_le_compat_l; nra.
Qed.

Lemma shape_lipschitz a b : 0 <= a <= 1 -> 0 <= b <= 1 -> Rabs (shape a - shape b) <= 24 * Rabs (a - b).
Proof.
  intros A B.
  assert (E : shape a - shape b =
    (a - b) * (4 * (1 - a) ^ 4 - (1 + 4 * b) * ((2 - a - b) * ((1 - a) ^ 2 + (1 - b) ^ 2)))) by (unfold shape; ring).
  rewrite E, Rabs_mult, (Rmult_comm 24). apply Rmult_le_compat_l; [apply Rabs_pos|].
  assert (A2 : 0 <= (1 - a) ^ 2 <= 1) by (cbn [pow]; nra). assert (B2 : 0 <= (1 - b) ^ 2 <= 1) by (cbn [pow]; nra).
  replace ((1 - a) ^ 4) with ((1 - a) ^ 2 * (1 - a) ^ 2) by ring.
  set (x := (1 - a) ^ 2) in *. set (y := (1 - b) ^ 2) in *. clearbody x y.
  assert (X : 0 <= x * x <= 1) by nra.
  assert (Y : 0 <= (2 - a - b) * (x + y) <= 4) by nra. set (z := (2 - a - b) * (x + y)) in *. clearbody z.
  apply Rabs_le. split; nra.
Qed.

Lemma shape_edge q d : 0 <= q <= 1 -> 1 - q <= d -> shape q <= 5 * d.
Proof.
  intros Q D. unfold shape. assert (P : 0 <= (1 - q) ^ 3 <= 1).
  { split; [apply pow_le; lra|]. apply pow_le_1. lra. }
  replace ((1 - q) ^ 4) with ((1 - q) * (1 - q) ^ 3) by ring. set (c := (1 - q) ^ 3) in *. clearbody c.
  assert (0 <= (1 - q) * c <= d) by nra. nra.
Qed.

Lemma cut_lipschitz a b : 0 <= a -> 0 <= b -> a < 1 \/ b < 1 -> Rabs (cut_shape a - cut_shape b) <= 24 * Rabs (a - b).
Proof.
  intros A B O. unfold cut_shape. destruct (Rlt_dec a 1) as [A1|A1], (Rlt_dec b 1) as [B1|B1].
  - apply shape_lipschitz; lra.
  - destruct (shape_bound a ltac:(lra)). rewrite Rminus_0_r, Rabs_pos_eq by lra.
    rewrite (Rabs_left1 (a - b)) by lra. pose proof (shape_edge a (b - a) ltac:(lra) ltac:(lra)). lra.
  - destruct (shape_bound b ltac:(lra)). rewrite Rminus_0_l, Rabs_Ropp, Rabs_pos_eq by lra.
    rewrite (Rabs_pos_eq (a - b)) by lra. pose proof (shape_edge b (a - b) ltac:(lra) ltac:(lra)). lra.
  - lra.
Qed.

(** * Both kernels at once *)

(** The part that the kernels share, the constant and the powers of the inverse width apart. *)
Definition body (r H scale : R) : R :=
  let q := rnd 53 (r * rnd 53 (1 / H)) in
  if Rlt_dec q 1
  then let o := rnd 53 (1 - q) in
       let o2 := rnd 53 (o * o) in
       let o4 := rnd 53 (o2 * o2) in
       rnd 53 (Rmax (rnd 53 (o4 * rnd 53 (1 + rnd 53 (4 * q)))) 0 * scale)
  else 0.

Lemma ratio_near r H : 0 <= r -> 0 < H ->
  let q := rnd 53 (r * rnd 53 (1 / H)) in 0 <= q /\ exists t, fac 2 t /\ q = r / H * t.
Proof.
  intros Hr HH. cbv zeta. assert (I : 0 < / H) by (apply Rinv_0_lt_compat; exact HH).
  destruct (fac_rnd (1 / H)) as [t1 [F1 E1]]; [unfold Rdiv; lra|]. rewrite E1. pose proof (fac_pos _ _ F1).
  assert (P : 0 <= r * (1 / H * t1)) by (unfold Rdiv; apply Rmult_le_pos; [lra|]; apply Rmult_le_pos; lra).
  destruct (fac_rnd _ P) as [t2 [F2 E2]]. rewrite E2. pose proof (fac_pos _ _ F2).
  split; [apply Rmult_le_pos; lra|]. exists (t1 * t2). split; [exact (fac_mult 1 1 _ _ F1 F2)|]. unfold Rdiv. ring.
Qed.

(** The value is the shape at a ratio with two roundings, times eleven roundings and the constant. *)
Lemma body_value r H scale : 0 <= r -> 0 < H -> 0 <= scale ->
  exists q t, 0 <= q /\ fac 11 t /\ (exists s, fac 2 s /\ q = r / H * s) /\ body r H scale = cut_shape q * scale * t.
Proof.
  intros Hr HH HS. destruct (ratio_near r H Hr HH) as [Q0 Q]. unfold body. cbv zeta in *.
  set (q := rnd 53 (r * rnd 53 (1 / H))) in *. clearbody q. unfold cut_shape. destruct (Rlt_dec q 1) as [L|L].
  2: { exists q, 1. split; [exact Q0|]. split; [apply (fac_mono 0); [lia|unfold fac; cbn; lra]|]. split; [exact Q|].
       destruct (Rlt_dec q 1); [contradiction|]. ring. }
  destruct (fac_rnd (1 - q)) as [a [Fa Ea]]; [lra|]. rewrite Ea. pose proof (fac_pos _ _ Fa).
  destruct (fac_rnd ((1 - q) * a * ((1 - q) * a))) as [b [Fb Eb]]; [apply Rle_0_sqr|]. rewrite Eb. pose proof (fac_pos _ _ Fb).
  set (o2 := (1 - q) * a * ((1 - q) * a) * b) in *.
  assert (O2 : 0 <= o2) by (apply Rmult_le_pos; [apply Rle_0_sqr|lra]).
  destruct (fac_rnd (o2 * o2)) as [c [Fc Ec]]; [nra|]. rewrite Ec. pose proof (fac_pos _ _ Fc).
  destruct (fac_rnd (4 * q)) as [d [Fd Ed]]; [lra|]. rewrite Ed.
  destruct (fac_sum 1 (4 * q) d ltac:(lra) Fd) as [d' [Fd' Ed']]. rewrite Ed'. pose proof (fac_pos _ _ Fd').
  destruct (fac_rnd ((1 + 4 * q) * d')) as [e [Fe Ee]]; [apply Rmult_le_pos; lra|]. rewrite Ee. pose proof (fac_pos _ _ Fe).
  assert (P : 0 <= o2 * o2 * c * ((1 + 4 * q) * d' * e)).
  { apply Rmult_le_pos; [nra|]. apply Rmult_le_pos; [|lra]. apply Rmult_le_pos; lra. }
  destruct (fac_rnd _ P) as [f [Ff Ef]]. rewrite Ef. pose proof (fac_pos _ _ Ff).
  rewrite Rmax_left by (apply Rmult_le_pos; lra).
  assert (P2 : 0 <= o2 * o2 * c * ((1 + 4 * q) * d' * e) * f * scale).
  { apply Rmult_le_pos; [|lra]. apply Rmult_le_pos; lra. }
  destruct (fac_rnd _ P2) as [g [Fg Eg]]. rewrite Eg.
  exists q, (a * a * (a * a) * (b * b) * c * d' * e * f * g). split; [exact Q0|]. split.
  - pose proof (fac_mult _ _ _ _ (fac_mult _ _ _ _ Fa Fa) (fac_mult _ _ _ _ Fa Fa)) as W1.
    pose proof (fac_mult _ _ _ _ (fac_mult _ _ _ _ W1 (fac_mult _ _ _ _ Fb Fb)) Fc) as W2.
    pose proof (fac_mult _ _ _ _ (fac_mult _ _ _ _ (fac_mult _ _ _ _ (fac_mult _ _ _ _ W2 Fd') Fe) Ff) Fg) as W3.
    cbn [Nat.add] in W3. exact W3.
  - split; [exact Q|]. destruct (Rlt_dec q 1); [|contradiction]. unfold o2, shape. ring.
Qed.

(** Against a constant [w] that [scale] approximates. *)
Lemma body_error r H scale w n s : 0 <= r -> 0 < H -> 0 <= w -> fac n s -> scale = w * s -> (n <= 13)%nat ->
  Rabs (body r H scale - cut_shape (r / H) * w) <= 80 * u53 * w.
Proof.
  intros Hr HH Hw Fs -> Hn. pose proof (fac_pos _ _ Fs) as Ps. pose proof u53_small as U.
  destruct (body_value r H (w * s) Hr HH ltac:(apply Rmult_le_pos; lra)) as [q [t [Q0 [Ft [[z [Fz Ez]] ->]]]]].
  pose proof (fac_error (11 + n) _ ltac:(lia) (fac_mult _ _ _ _ Ft Fs)) as Er.
  assert (I : 0 < / H) by (apply Rinv_0_lt_compat; exact HH). assert (X : 0 <= r / H) by (apply Rmult_le_pos; lra).
  set (x := r / H) in *. clearbody x. pose proof (fac_pos _ _ Fz) as Pz.
  assert (Z : Rabs (z - 1) <= (21 / 10) * u53).
  { destruct Fz as [Z1 Z2]. cbn [pow] in *. apply Rabs_le. nra. }
  assert (C : 0 <= cut_shape q <= 1).
  { unfold cut_shape. destruct (Rlt_dec q 1); [apply shape_bound; lra|lra]. }
  assert (D : Rabs (cut_shape q - cut_shape x) <= 52 * u53).
  { destruct (Rlt_dec q 1) as [L1|L1]; [|destruct (Rlt_dec x 1) as [L2|L2]].
    - eapply Rle_trans; [apply cut_lipschitz; auto|]. rewrite Ez. replace (x * z - x) with (x * (z - 1)) by ring.
      rewrite Rabs_mult, (Rabs_pos_eq x X). apply Rabs_le_inv in Z.
      assert (x <= 101 / 100) by nra.
      assert (0 <= Rabs (z - 1) <= (21 / 10) * u53) by (split; [apply Rabs_pos|apply Rabs_le; lra]). nra.
    - eapply Rle_trans; [apply cut_lipschitz; auto|]. rewrite Ez. replace (x * z - x) with (x * (z - 1)) by ring.
      rewrite Rabs_mult, (Rabs_pos_eq x X). pose proof (Rabs_pos (z - 1)). nra.
    - unfold cut_shape. destruct (Rlt_dec q 1); [contradiction|]. destruct (Rlt_dec x 1); [contradiction|].
      rewrite Rminus_0_r, Rabs_R0. lra. }
  replace (cut_shape q * (w * s) * t - cut_shape x * w) with
    (w * (cut_shape q * (t * s - 1) + (cut_shape q - cut_shape x))) by ring.
  rewrite Rabs_mult, (Rabs_pos_eq w Hw), (Rmult_comm (80 * u53)). apply Rmult_le_compat_l; [exact Hw|].
  eapply Rle_trans; [apply Rabs_triang|]. rewrite Rabs_mult, (Rabs_pos_eq (cut_shape q)) by lra.
  pose proof (Rabs_pos (t * s - 1)). nra.
Qed.

(** * The kernels of the sources *)

Lemma lit_1 : rnd 53 (Q2R 1) = 1. Proof. replace (Q2R 1) with 1 by (unfold Q2R; cbn; lra). apply rnd_1. Qed.
Lemma lit_0 : rnd 53 (Q2R 0) = 0. Proof. replace (Q2R 0) with 0 by (unfold Q2R; cbn; lra). apply rnd_0. Qed.
Lemma lit_4 : rnd 53 (Q2R 4) = 4. Proof. replace (Q2R 4) with 4 by (unfold Q2R; cbn; lra). apply rnd_id. apply (int_format 53 4); lia. Qed.
Lemma lit_2 : rnd 53 (Q2R 2) = 2. Proof. replace (Q2R 2) with 2 by (unfold Q2R; cbn; lra). apply rnd_id. apply (int_format 53 2); lia. Qed.
Lemma lit_21 : rnd 53 (Q2R 21) = 21. Proof. replace (Q2R 21) with 21 by (unfold Q2R; cbn; lra). apply rnd_id. apply (int_format 53 21); lia. Qed.

Definition scale2 (c H : R) : R := let i := rnd 53 (1 / H) in rnd 53 (rnd 53 (c * i) * i).
Definition scale3 (c H : R) : R := let i := rnd 53 (1 / H) in rnd 53 (rnd 53 (rnd 53 (c * i) * i) * i).

Lemma kernel2_body narrow r H :
  kernel2 rounded narrow r H = body r H (scale2 (narrow (rnd 53 (Q2R (222817109 # 100000000)))) H).
Proof.
  unfold kernel2, body, scale2, one, zero. cbn [num lit less sub mul div add larger rounded]. unfold rnd2.
  rewrite lit_1, lit_0, lit_4. destruct (Rlt_dec _ 1); reflexivity.
Qed.
Lemma kernel3_body r H :
  kernel3 rounded r H =
  body r H (scale3 (rnd 53 (rnd 53 (21 * rnd 53 (Q2R (31830988618379067154 # 100000000000000000000))) / 2)) H).
Proof.
  unfold kernel3, body, scale3, one, zero. cbn [num lit less sub mul div add larger rounded]. unfold rnd2.
  rewrite lit_1, lit_0, lit_4, lit_2, lit_21. destruct (Rlt_dec _ 1); reflexivity.
Qed.

Lemma exact2 r H : 0 < H -> VisModel.kernel2 r H = (if Rlt_dec (r * (1 / H)) 1 then Rmax (shape (r * (1 / H))) 0 else 0) * (VisModel.constant2 * (1 / H) * (1 / H)).
Proof.
  intro HH. unfold VisModel.kernel2, shape. destruct (Rlt_dec _ 1); [|ring]. f_equal. f_equal. ring.
Qed.
Lemma exact3 r H : 0 < H -> VisModel.kernel3 r H = (if Rlt_dec (r * (1 / H)) 1 then Rmax (shape (r * (1 / H))) 0 else 0) * (VisModel.constant3 * (1 / H) * (1 / H) * (1 / H)).
Proof.
  intro HH. unfold VisModel.kernel3, shape. destruct (Rlt_dec _ 1); [|ring]. f_equal. f_equal. ring.
Qed.
Lemma cut_exact r H : 0 <= r -> 0 < H -> (if Rlt_dec (r * (1 / H)) 1 then Rmax (shape (r * (1 / H))) 0 else 0) = cut_shape (r / H).
Proof.
  intros Hr HH. replace (r * (1 / H)) with (r / H) by (unfold Rdiv; ring). unfold cut_shape.
  assert (I : 0 < / H) by (apply Rinv_0_lt_compat; exact HH). assert (X : 0 <= r / H) by (apply Rmult_le_pos; lra).
  destruct (Rlt_dec (r / H) 1); [|reflexivity]. destruct (shape_bound (r / H)); [lra|]. apply Rmax_left. lra.
Qed.
Lemma cut_0 : cut_shape 0 = 1.
Proof. unfold cut_shape, shape. destruct (Rlt_dec 0 1); [ring|lra]. Qed.
Lemma centre2 H : 0 < H -> VisModel.kernel2 0 H = VisModel.constant2 * (1 / H) * (1 / H).
Proof.
  intro HH. rewrite exact2, cut_exact by lra. replace (0 / H) with 0 by (unfold Rdiv; ring). rewrite cut_0. ring.
Qed.
Lemma centre3 H : 0 < H -> VisModel.kernel3 0 H = VisModel.constant3 * (1 / H) * (1 / H) * (1 / H).
Proof.
  intro HH. rewrite exact3, cut_exact by lra. replace (0 / H) with 0 by (unfold Rdiv; ring). rewrite cut_0. ring.
Qed.

Lemma scale2_value c H : 0 <= c -> 0 < H -> exists t, fac 4 t /\ scale2 c H = c * (1 / H) * (1 / H) * t.
Proof.
  intros Hc HH. assert (I : 0 < / H) by (apply Rinv_0_lt_compat; exact HH). unfold scale2.
  destruct (fac_rnd (1 / H)) as [a [Fa ->]]; [unfold Rdiv; lra|]. pose proof (fac_pos _ _ Fa).
  set (i := 1 / H) in *. assert (Pi : 0 < i) by (unfold i, Rdiv; lra). assert (Pa : 0 < i * a) by (apply Rmult_lt_0_compat; lra).
  destruct (fac_rnd (c * (i * a))) as [b [Fb ->]]; [apply Rmult_le_pos; lra|]. pose proof (fac_pos _ _ Fb).
  destruct (fac_rnd (c * (i * a) * b * (i * a))) as [d [Fd ->]].
  { apply Rmult_le_pos; [|lra]. apply Rmult_le_pos; [|lra]. apply Rmult_le_pos; lra. }
  exists (a * a * b * d). split; [|ring].
  exact (fac_mult _ _ _ _ (fac_mult _ _ _ _ (fac_mult _ _ _ _ Fa Fa) Fb) Fd).
Qed.
Lemma scale3_value c H : 0 <= c -> 0 < H -> exists t, fac 6 t /\ scale3 c H = c * (1 / H) * (1 / H) * (1 / H) * t.
Proof.
  intros Hc HH. destruct (scale2_value c H Hc HH) as [t [Ft Et]]. unfold scale2 in Et. unfold scale3. cbv zeta in *. rewrite Et.
  assert (I : 0 < / H) by (apply Rinv_0_lt_compat; exact HH).
  destruct (fac_rnd (1 / H)) as [a [Fa ->]]; [unfold Rdiv; lra|]. pose proof (fac_pos _ _ Fa). pose proof (fac_pos _ _ Ft).
  set (i := 1 / H) in *. assert (Pi : 0 < i) by (unfold i, Rdiv; lra).
  destruct (fac_rnd (c * i * i * t * (i * a))) as [b [Fb ->]].
  { repeat (apply Rmult_le_pos; [|lra]). apply Rmult_le_pos; [|apply Rmult_le_pos; lra].
    repeat (apply Rmult_le_pos; [|lra]). lra. }
  exists (t * a * b). split; [|ring]. exact (fac_mult _ _ _ _ (fac_mult _ _ _ _ Ft Fa) Fb).
Qed.
Lemma constant2_value : exists t, fac 1 t /\ rnd 53 (Q2R (222817109 # 100000000)) = VisModel.constant2 * t.
Proof.
  replace (Q2R (222817109 # 100000000)) with VisModel.constant2 by (unfold Q2R, VisModel.constant2; cbn; lra).
  apply fac_rnd. unfold VisModel.constant2. lra.
Qed.
Lemma constant3_value : exists t, fac 3 t /\
  rnd 53 (rnd 53 (21 * rnd 53 (Q2R (31830988618379067154 # 100000000000000000000))) / 2) = VisModel.constant3 * t.
Proof.
  set (k := Q2R (31830988618379067154 # 100000000000000000000)).
  assert (K : k = 31830988618379067154 / 100000000000000000000) by (unfold k, Q2R; cbn; lra).
  assert (Pk : 0 < k) by (rewrite K; lra).
  assert (Ck : VisModel.constant3 = 21 * k / 2) by (unfold VisModel.constant3; rewrite K; lra). clearbody k. rewrite Ck. clear K Ck.
  destruct (fac_rnd k) as [a [Fa ->]]; [lra|]. pose proof (fac_pos _ _ Fa).
  assert (P1 : 0 < k * a) by (apply Rmult_lt_0_compat; lra).
  destruct (fac_rnd (21 * (k * a))) as [b [Fb ->]]; [lra|]. pose proof (fac_pos _ _ Fb).
  assert (P2 : 0 < 21 * (k * a) * b) by (apply Rmult_lt_0_compat; lra).
  destruct (fac_rnd (21 * (k * a) * b / 2)) as [c [Fc ->]]; [lra|].
  exists (a * b * c). split; [exact (fac_mult _ _ _ _ (fac_mult _ _ _ _ Fa Fb) Fc)|]. field.
Qed.

Lemma c2_pos : 0 < VisModel.constant2. Proof. unfold VisModel.constant2. lra. Qed.
Lemma c3_pos : 0 < VisModel.constant3. Proof. unfold VisModel.constant3. lra. Qed.
Lemma weight2_pos H : 0 < H -> 0 < VisModel.constant2 * (1 / H) * (1 / H).
Proof.
  intro HH. assert (0 < 1 / H) by (unfold Rdiv; rewrite Rmult_1_l; apply Rinv_0_lt_compat; exact HH). pose proof c2_pos.
  apply Rmult_lt_0_compat; [apply Rmult_lt_0_compat|]; assumption.
Qed.
Lemma weight3_pos H : 0 < H -> 0 < VisModel.constant3 * (1 / H) * (1 / H) * (1 / H).
Proof.
  intro HH. assert (0 < 1 / H) by (unfold Rdiv; rewrite Rmult_1_l; apply Rinv_0_lt_compat; exact HH). pose proof c3_pos.
  apply Rmult_lt_0_compat; [apply Rmult_lt_0_compat; [apply Rmult_lt_0_compat|]|]; assumption.
Qed.

(** * C133 *)

(** The kernel of projections in double precision is off by at most eighty roundings of its value at the centre. *)
Theorem C133_projection r H : 0 <= r -> 0 < H ->
  Rabs (kernel2 rounded (double rounded) r H - VisModel.kernel2 r H) <= 80 * u53 * VisModel.kernel2 0 H.
Proof.
  intros Hr HH. rewrite kernel2_body, centre2, exact2, cut_exact by assumption.
  change (double rounded (rnd 53 (Q2R (222817109 # 100000000)))) with (rnd 53 (Q2R (222817109 # 100000000))).
  destruct constant2_value as [a [Fa ->]]. pose proof (fac_pos _ _ Fa). pose proof c2_pos. pose proof (weight2_pos H HH).
  destruct (scale2_value (VisModel.constant2 * a) H) as [t [Ft Et]]; [apply Rmult_le_pos; lra|assumption|].
  apply (body_error r H _ _ 5 (a * t)); try assumption; [lra|exact (fac_mult _ _ _ _ Fa Ft)| |lia]. rewrite Et. ring.
Qed.

(** So is the kernel of slices. *)
Theorem C133_slice r H : 0 <= r -> 0 < H ->
  Rabs (kernel3 rounded r H - VisModel.kernel3 r H) <= 80 * u53 * VisModel.kernel3 0 H.
Proof.
  intros Hr HH. rewrite kernel3_body, centre3, exact3, cut_exact by assumption.
  destruct constant3_value as [a [Fa ->]]. pose proof (fac_pos _ _ Fa). pose proof c3_pos. pose proof (weight3_pos H HH).
  destruct (scale3_value (VisModel.constant3 * a) H) as [t [Ft Et]]; [apply Rmult_le_pos; lra|assumption|].
  apply (body_error r H _ _ 9 (a * t)); try assumption; [lra|exact (fac_mult _ _ _ _ Fa Ft)| |lia]. rewrite Et. ring.
Qed.

(** The constant in single precision adds one rounding of single precision. *)
Definition u24 : R := / 2 ^ 24.
Lemma rnd24_error x : 0 <= x -> Rabs (rnd 24 x - x) <= x * u24.
Proof.
  intro Hx. replace u24 with (bpow radix2 (-24)).
  2: { unfold u24. change (bpow radix2 (-24)) with (/ IZR (2 ^ 24)). f_equal. symmetry. exact (pow_IZR 2 24). }
  assert (Prec_gt_0 24) by reflexivity.
  eapply Rle_trans; [apply error_le_half_ulp; typeclasses eauto|].
  pose proof (ulp_FLX_le radix2 24 x) as U. change (1 - 24)%Z with (1 + -24)%Z in U. rewrite bpow_plus in U.
  change (bpow radix2 1) with 2 in U. rewrite (Rabs_pos_eq x Hx) in U. lra.
Qed.
Theorem C133_projection_single r H : 0 <= r -> 0 < H ->
  Rabs (kernel2 rounded (single rounded) r H - VisModel.kernel2 r H) <= (u24 + 82 * u53) * VisModel.kernel2 0 H.
Proof.
  intros Hr HH. rewrite kernel2_body, centre2, exact2, cut_exact by assumption.
  change (single rounded (rnd 53 (Q2R (222817109 # 100000000)))) with (rnd 24 (rnd 53 (Q2R (222817109 # 100000000)))).
  assert (U : 0 < u24 < / 1000) by (unfold u24; cbn; lra). pose proof u53_small as U'.
  destruct constant2_value as [a [Fa Ea]]. pose proof (fac_pos _ _ Fa). pose proof c2_pos as C2. pose proof (weight2_pos H HH) as W.
  assert (Pc : 0 < VisModel.constant2 * a) by (apply Rmult_lt_0_compat; lra).
  pose proof (rnd24_error (rnd 53 (Q2R (222817109 # 100000000)))) as Es. rewrite Ea in *. specialize (Es ltac:(lra)).
  set (c' := rnd 24 (VisModel.constant2 * a)) in *. clearbody c'.
  assert (I : 0 < 1 / H) by (unfold Rdiv; rewrite Rmult_1_l; apply Rinv_0_lt_compat; exact HH).
  set (i := 1 / H) in *. assert (V : 1 / H = i) by reflexivity.
  (* the constant is the exact one with a factor of single precision and one of double precision *)
  set (d := c' / (VisModel.constant2 * a)).
  assert (D : Rabs (d - 1) <= u24).
  { apply Rabs_le_inv in Es. unfold d. assert (J : 0 < / (VisModel.constant2 * a)) by (apply Rinv_0_lt_compat; exact Pc).
    assert (JV : VisModel.constant2 * a * / (VisModel.constant2 * a) = 1) by (apply Rinv_r; lra).
    set (j := / (VisModel.constant2 * a)) in *. set (m := VisModel.constant2 * a) in *. unfold Rdiv. fold j. clearbody j m.
    apply Rabs_le. split; nra. }
  assert (Ec : c' = VisModel.constant2 * d * a) by (unfold d; field; split; lra). clearbody d.
  apply Rabs_le_inv in D. assert (Pd : 0 < d) by lra.
  destruct (scale2_value c' H) as [t [Ft Et]]; [rewrite Ec; repeat apply Rmult_le_pos; lra|assumption|].
  fold i in Et.
  assert (B : Rabs (body r H (scale2 c' H) - cut_shape (r / H) * (VisModel.constant2 * d * i * i)) <=
              80 * u53 * (VisModel.constant2 * d * i * i)).
  { apply (body_error r H _ _ 5 (a * t)); try assumption.
    - repeat apply Rmult_le_pos; lra.
    - exact (fac_mult _ _ _ _ Fa Ft).
    - rewrite Et, Ec. ring.
    - lia. }
  assert (C : 0 <= cut_shape (r / H) <= 1).
  { assert (X : 0 <= r / H) by (replace (r / H) with (r * i) by (unfold i, Rdiv; ring); apply Rmult_le_pos; lra).
    unfold cut_shape. destruct (Rlt_dec (r / H) 1); [apply shape_bound; lra|lra]. }
  replace (VisModel.constant2 * d * i * i) with (VisModel.constant2 * i * i * d) in B by ring.
  set (w := VisModel.constant2 * i * i) in *. set (g := cut_shape (r / H)) in *. clearbody w g.
  replace (body r H (scale2 c' H) - g * w) with (body r H (scale2 c' H) - g * (w * d) + g * w * (d - 1)) by ring.
  eapply Rle_trans; [apply Rabs_triang|].
  assert (G : Rabs (g * w * (d - 1)) <= u24 * w).
  { rewrite Rabs_mult, (Rabs_pos_eq (g * w)) by (apply Rmult_le_pos; lra).
    assert (0 <= g * w <= w) by nra. assert (0 <= Rabs (d - 1) <= u24) by (split; [apply Rabs_pos|apply Rabs_le; lra]).
    rewrite Rmult_comm. apply Rmult_le_compat; lra. }
  assert (E : 80 * u53 * (w * d) <= 82 * u53 * w).
  { replace (80 * u53 * (w * d)) with (80 * d * (u53 * w)) by ring. replace (82 * u53 * w) with (82 * (u53 * w)) by ring.
    apply Rmult_le_compat_r; [apply Rmult_le_pos; lra|lra]. }
  lra.
Qed.

(** No value is negative, whatever the precision of the constant. *)
Theorem C133_nonnegative narrow r H : 0 <= r -> 0 < H -> (forall x, 0 <= x -> 0 <= narrow x) ->
  0 <= kernel2 rounded narrow r H /\ 0 <= kernel3 rounded r H.
Proof.
  intros Hr HH Hn. rewrite kernel2_body, kernel3_body.
  assert (G : forall s, 0 <= s -> 0 <= body r H s).
  { intros s Hs. destruct (body_value r H s Hr HH Hs) as [q [t [Q0 [Ft [_ ->]]]]]. pose proof (fac_pos _ _ Ft).
    apply Rmult_le_pos; [|lra]. apply Rmult_le_pos; [|exact Hs].
    unfold cut_shape. destruct (Rlt_dec q 1); [apply shape_bound; lra|lra]. }
  assert (I' : 0 < / H) by (apply Rinv_0_lt_compat; exact HH).
  split; apply G.
  - set (c := narrow _). assert (Pc : 0 <= c).
    { apply Hn. destruct constant2_value as [a [Fa ->]]. pose proof (fac_pos _ _ Fa). pose proof c2_pos. apply Rmult_le_pos; lra. }
    destruct (scale2_value c H Pc HH) as [t [Ft ->]]. pose proof (fac_pos _ _ Ft). repeat apply Rmult_le_pos; lra.
  - destruct constant3_value as [a [Fa ->]]. pose proof (fac_pos _ _ Fa). pose proof c3_pos.
    destruct (scale3_value (VisModel.constant3 * a) H) as [t [Ft ->]]; [apply Rmult_le_pos; lra|assumption|].
    pose proof (fac_pos _ _ Ft). repeat apply Rmult_le_pos; lra.
Qed.

(** The support ends within three roundings of the width: beyond, the value is exactly zero; before, it is positive. *)
Theorem C133_support narrow r H : 0 <= r -> 0 < H -> (forall x, 0 < x -> 0 < narrow x) ->
  (H * (1 + 3 * u53) <= r -> kernel2 rounded narrow r H = 0 /\ kernel3 rounded r H = 0) /\
  (r <= H * (1 - 3 * u53) -> 0 < kernel2 rounded narrow r H /\ 0 < kernel3 rounded r H).
Proof.
  intros Hr HH Hn. rewrite kernel2_body, kernel3_body. pose proof u53_small as U.
  assert (I : 0 < / H) by (apply Rinv_0_lt_compat; exact HH). assert (I' : 0 < 1 / H) by (unfold Rdiv; lra).
  assert (V : H * / H = 1) by (apply Rinv_r; lra).
  set (c := narrow _). assert (Pc : 0 < c).
  { apply Hn. destruct constant2_value as [a [Fa ->]]. pose proof (fac_pos _ _ Fa). pose proof c2_pos. apply Rmult_lt_0_compat; lra. }
  destruct constant3_value as [a [Fa ->]]. pose proof (fac_pos _ _ Fa). pose proof c3_pos.
  assert (P3 : 0 < VisModel.constant3 * a) by (apply Rmult_lt_0_compat; lra).
  destruct (scale2_value c H ltac:(lra) HH) as [t [Ft Et]]. destruct (scale3_value _ H (Rlt_le _ _ P3) HH) as [s [Fs Es]].
  pose proof (fac_pos _ _ Ft). pose proof (fac_pos _ _ Fs).
  assert (S2 : 0 < scale2 c H) by (rewrite Et; repeat apply Rmult_lt_0_compat; lra).
  assert (S3 : 0 < scale3 (VisModel.constant3 * a) H) by (rewrite Es; repeat apply Rmult_lt_0_compat; lra).
  assert (R1 : forall z, fac 2 z -> (1 - 2 * u53 <= z <= 1 + 2 * u53 + u53 * u53)) by (intros z [Z1 Z2]; cbn [pow] in *; nra).
  split; intro L.
  - assert (X : 1 + 3 * u53 <= r / H) by (unfold Rdiv; nra).
    assert (G : forall k, 0 < k -> body r H k = 0).
    { intros k Hk. destruct (body_value r H k Hr HH ltac:(lra)) as [q [e [Q0 [Fe [[z [Fz Ez]] ->]]]]].
      apply R1 in Fz. assert (1 <= q) by (rewrite Ez; nra). unfold cut_shape. destruct (Rlt_dec q 1); [lra|ring]. }
    split; apply G; assumption.
  - assert (X : 0 <= r / H <= 1 - 3 * u53) by (unfold Rdiv; split; nra).
    assert (G : forall k, 0 < k -> 0 < body r H k).
    { intros k Hk. destruct (body_value r H k Hr HH ltac:(lra)) as [q [e [Q0 [Fe [[z [Fz Ez]] ->]]]]]. pose proof (fac_pos _ _ Fe).
      apply R1 in Fz. assert (q < 1).
      { rewrite Ez. apply Rle_lt_trans with ((1 - 3 * u53) * (1 + 2 * u53 + u53 * u53)); [apply Rmult_le_compat; lra|nra]. }
      unfold cut_shape. destruct (Rlt_dec q 1); [|lra]. apply Rmult_lt_0_compat; [|lra]. apply Rmult_lt_0_compat; [|lra].
      unfold shape. apply Rmult_lt_0_compat; [apply pow_lt; lra|lra]. }
    split; apply G; assumption.
Qed.

(** In between the value can be positive where that of exact arithmetic is zero: at the edge of the kernel of width 49,
    1 / 49 is rounded down. *)
Theorem C133_edge_refuted :
  (forall H, 0 < H -> VisModel.kernel2 H H = 0 /\ VisModel.kernel3 H H = 0) /\
  SFltb (S754_zero false) (kernel2 ieee (double ieee) (dbl 49 0) (dbl 49 0)) = true /\
  SFltb (S754_zero false) (kernel3 ieee (dbl 49 0) (dbl 49 0)) = true.
Proof.
  split; [|split; vm_compute; reflexivity].
  intros H HH. assert (V : H * (1 / H) = 1) by (field; lra).
  unfold VisModel.kernel2, VisModel.kernel3. cbv zeta. rewrite V. destruct (Rlt_dec 1 1); [lra|]. split; reflexivity.
Qed.

(** Halfway to the edge of a kernel of width one the value is that of exact arithmetic, 3/16 of the centre, up to a few
    units of the last place. *)
Example C133_case :
  0 <= 1 / 2 /\ 0 < 1 /\ VisModel.kernel2 (1 / 2) 1 = 3 / 16 * VisModel.kernel2 0 1 /\
  Rabs (kernel2 rounded (double rounded) (1 / 2) 1 - 3 / 16 * VisModel.kernel2 0 1) <= 80 * u53 * VisModel.kernel2 0 1 /\
  kernel2 rounded (double rounded) 2 1 = 0.
Proof.
  split; [lra|]. split; [lra|].
  assert (E : VisModel.kernel2 (1 / 2) 1 = 3 / 16 * VisModel.kernel2 0 1).
  { rewrite exact2, centre2, cut_exact by lra. unfold cut_shape, shape. destruct (Rlt_dec (1 / 2 / 1) 1); [field|lra]. }
  split; [exact E|]. split; [rewrite <- E; apply C133_projection; lra|].
  pose proof u53_small. apply (C133_support (fun x => x) 2 1); try lra. intros; assumption.
Qed.

Print Assumptions C133_projection.
Print Assumptions C133_slice.
Print Assumptions C133_projection_single.
Print Assumptions C133_nonnegative.
Print Assumptions C133_support.
Print Assumptions C133_edge_refuted.

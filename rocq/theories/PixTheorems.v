(** C143: the pixels of smoothed projections computed with rounded numbers.

    The loop of fast.py as in RoundModel.v ([fast_at]), with operations rounded to double precision, positions, cell
    numbers and the kernel's constants narrowed to single precision as in the source, and exponents without limits.
    It is compared with the exact kernel ([VisModel.kernel2]) at the exact distance of the pixel's centre. *)
From Coq Require Import List ZArith QArith Bool Reals Lia Lra Psatz Qreals.
From Flocq Require Import Core.
From Verif Require Import Base BaseLemmas RoundModel RoundFloatModel RoundFloatTheorems RoundMaskTheorems WrapSpec WrapTheorems KroundTheorems.
From Verif Require RotModel TurnTheorems AimTheorems.
From Verif Require Import RoundSumSpec RoundSumModel RoundSumProofs RoundSumTheorems.
From Verif Require VisModel.
Import ListNotations.
Open Scope R_scope.

Lemma u53_value : 0 < u53 < 1112 / 10 ^ 19.
Proof. exact AimTheorems.u_value. Qed.
Lemma u24_value : 596 / 10 ^ 10 < u24 < 597 / 10 ^ 10.
Proof. unfold u24. lra. Qed.

Lemma rnd24_abs x : Rabs (rnd 24 x - x) <= Rabs x * u24.
Proof.
  replace u24 with (bpow radix2 (-24)).
  2: { unfold u24. change (bpow radix2 (-24)) with (/ IZR (2 ^ 24)). f_equal. symmetry. exact (pow_IZR 2 24). }
  assert (Prec_gt_0 24) by reflexivity.
  eapply Rle_trans; [apply error_le_half_ulp; typeclasses eauto|].
  pose proof (ulp_FLX_le radix2 24 x) as U. change (1 - 24)%Z with (1 + -24)%Z in U. rewrite bpow_plus in U.
  change (bpow radix2 1) with 2 in U. lra.
Qed.

(** * Distances *)

(** How far the distance to the centre of a pixel can be off, for a particle at [x]. *)
Definition off (x : R) : R := (u24 + 2 * u53) * Rabs x + 28 * u53.
Lemma off_pos x : 0 <= off x.
Proof. unfold off. pose proof u53_value. pose proof u24_value. pose proof (Rabs_pos x). apply Rplus_le_le_0_compat; [apply Rmult_le_pos|]; lra. Qed.

Definition centre (n i : Z) : R := (IZR i + / 2) / IZR n.

Lemma distance_close n i x : (1 <= n < 2 ^ 24)%Z -> (0 <= i < n)%Z ->
  Rabs (distance rounded (single rounded) (div rounded (one rounded) (single rounded (of_int rounded n))) i x - (centre n i - x)) <= off x.
Proof.
  intros Hn Hi. unfold distance. rewrite half_rounded. cbn [rounded single of_int sub mul add div one lit]. unfold one. cbn [rounded lit]. rewrite lit_1. unfold rnd2.
  rewrite !single_int by lia.
  assert (N : 0 < IZR n) by (apply IZR_lt; lia). assert (I : 0 <= IZR i) by (apply IZR_le; lia). assert (IN : IZR i + 1 <= IZR n) by (rewrite <- plus_IZR; apply IZR_le; lia).
  assert (P1 : 0 < / IZR n) by (apply Rinv_0_lt_compat; exact N).
  destruct (fac_rnd (IZR i + / 2)) as (a & Fa & ->); [lra|]. destruct (fac_rnd (1 / IZR n)) as (b & Fb & ->); [unfold Rdiv; lra|].
  pose proof (fac_pos _ _ Fa). pose proof (fac_pos _ _ Fb).
  destruct (fac_rnd ((IZR i + / 2) * a * (1 / IZR n * b))) as (c & Fc & ->).
  { repeat apply Rmult_le_pos; unfold Rdiv; try lra. }
  assert (F : fac 3 (a * b * c)) by exact (fac_mult _ _ _ _ (fac_mult _ _ _ _ Fa Fb) Fc).
  replace ((IZR i + / 2) * a * (1 / IZR n * b) * c) with (centre n i * (a * b * c)) by (unfold centre, Rdiv; ring).
  apply fac_error in F; [|lia]. set (t := a * b * c) in *. clearbody t.
  assert (C : 0 <= centre n i <= 1).
  { unfold centre, Rdiv. split; [apply Rmult_le_pos; lra|]. apply Rle_trans with (IZR n * / IZR n); [apply Rmult_le_compat_r; lra|rewrite Rinv_r; lra]. }
  pose proof (rnd24_abs x) as S. set (x' := rnd 24 x) in *. clearbody x'. set (X := centre n i) in *. clearbody X.
  pose proof (rnd_error_abs (X * t - x')) as E. set (d := rnd 53 (X * t - x')) in *. clearbody d.
  pose proof u53_value as U. pose proof u24_value as V. pose proof (Rabs_pos x) as Ax.
  assert (D : Rabs (X * t - X) <= 26 * u53).
  { replace (X * t - X) with (X * (t - 1)) by ring. rewrite Rabs_mult, (Rabs_pos_eq X) by lra. pose proof (Rabs_pos (t - 1)). nra. }
  assert (B : Rabs (X * t - x') <= 2 + 2 * Rabs x).
  { replace (X * t - x') with ((X * t - X) + X + - (x' - x) + - x) by ring. eapply Rle_trans; [apply Rabs_triang|]. rewrite Rabs_Ropp.
    apply Rplus_le_reg_r with (- Rabs x). eapply Rle_trans with (Rabs (X * t - X + X + - (x' - x))); [lra|].
    eapply Rle_trans; [apply Rabs_triang|]. rewrite Rabs_Ropp. eapply Rle_trans; [apply Rplus_le_compat_r, Rabs_triang|]. rewrite (Rabs_pos_eq X) by lra. nra. }
  replace (d - (X - x)) with ((d - (X * t - x')) + (X * t - X) + - (x' - x)) by ring.
  eapply Rle_trans; [apply Rabs_triang|]. rewrite Rabs_Ropp. eapply Rle_trans; [apply Rplus_le_compat_r, Rabs_triang|].
  unfold off. nra.
Qed.

Lemma root_triangle a b c d : Rabs (sqrt (a * a + b * b) - sqrt (c * c + d * d)) <= Rabs (a - c) + Rabs (b - d).
Proof.
  assert (G : forall a b c d, sqrt (a * a + b * b) <= sqrt (c * c + d * d) + (Rabs (a - c) + Rabs (b - d))).
  { clear. intros a b c d. pose proof (TurnTheorems.norm_triangle (c, d, 0) (a - c, b - d, 0)) as T.
    unfold RotModel.norm, RotModel.vadd, RotModel.dot in T.
    replace ((c + (a - c)) * (c + (a - c)) + (d + (b - d)) * (d + (b - d)) + (0 + 0) * (0 + 0)) with (a * a + b * b) in T by ring.
    replace (c * c + d * d + 0 * 0) with (c * c + d * d) in T by ring.
    eapply Rle_trans; [exact T|]. apply Rplus_le_compat_l. pose proof (Rabs_pos (a - c)). pose proof (Rabs_pos (b - d)).
    apply TurnTheorems.le_of_sq; [lra|]. pose proof (Rle_0_sqr (a - c)) as Q1. pose proof (Rle_0_sqr (b - d)) as Q2. unfold Rsqr in Q1, Q2. rewrite sqrt_sqrt by lra.
    replace ((a - c) * (a - c) + (b - d) * (b - d) + 0 * 0) with (Rabs (a - c) * Rabs (a - c) + Rabs (b - d) * Rabs (b - d)) by (rewrite !TurnTheorems.abs_sq; ring). nra. }
  pose proof (G a b c d). pose proof (G c d a b) as Q. rewrite (Rabs_minus_sym c a), (Rabs_minus_sym d b) in Q. apply Rabs_le. lra.
Qed.

Lemma root_value a b : exists t, fac 3 t /\
  root rounded (add rounded (square_of rounded a) (square_of rounded b)) = sqrt (a * a + b * b) * t.
Proof.
  unfold square_of. cbn [rounded root add mul]. unfold rnd2.
  assert (A : 0 <= a * a) by nra. assert (B : 0 <= b * b) by nra.
  destruct (fac_rnd (a * a) A) as (s & Fs & ->). destruct (fac_rnd (b * b) B) as (t & Ft & ->).
  destruct (AimTheorems.fac_plus 1 _ _ s t A B Fs Ft) as (r & Fr & ->). pose proof (fac_pos _ _ Fr).
  destruct (fac_rnd ((a * a + b * b) * r)) as (q & Fq & ->); [apply Rmult_le_pos; lra|]. pose proof (fac_pos _ _ Fq).
  rewrite Rmult_assoc, sqrt_mult by (try apply Rmult_le_pos; lra).
  destruct (fac_rnd (sqrt (a * a + b * b) * sqrt (r * q))) as (p & Fp & ->); [apply Rmult_le_pos; apply sqrt_pos|].
  exists (sqrt (r * q) * p). split; [|exact (Rmult_assoc _ _ _)]. apply (fac_mult 2 1); [|exact Fp]. apply AimTheorems.fac_sqrt. exact (fac_mult 1 1 _ _ Fr Fq).
Qed.

(** * The shape *)

Lemma shape_slope q : derivable_pt_lim shape q (- (20 * q * (1 - q) ^ 3)).
Proof.
  assert (E : forall x, shape x = (1 - 10 * x ^ 2) + (20 * x ^ 3 + (- 15 * x ^ 4 + 4 * x ^ 5))) by (intro x; unfold shape; ring).
  replace (- (20 * q * (1 - q) ^ 3)) with ((0 - 10 * (INR 2 * q ^ 1)) + (20 * (INR 3 * q ^ 2) + (-15 * (INR 4 * q ^ 3) + 4 * (INR 5 * q ^ 4)))) by (cbn [INR]; ring).
  intros e He. assert (P : forall c k, derivable_pt_lim (fun x : R => c * pow x k) q (c * (INR k * q ^ Nat.pred k))).
  { intros c k. apply (derivable_pt_lim_scal (fun x : R => pow x k)). apply derivable_pt_lim_pow. }
  pose proof (derivable_pt_lim_plus _ _ q _ _ (derivable_pt_lim_minus _ _ q _ _ (derivable_pt_lim_const 1 q) (P 10 2%nat))
     (derivable_pt_lim_plus _ _ q _ _ (P 20 3%nat) (derivable_pt_lim_plus _ _ q _ _ (P (-15) 4%nat) (P 4 5%nat)))) as D.
  destruct (D e He) as (del & Dd). exists del. intros h N Hh. rewrite (E (q + h)), (E q). apply Dd; assumption.
Qed.
Lemma slope_bound q : 0 <= q <= 1 -> 0 <= 20 * q * (1 - q) ^ 3 <= 135 / 64.
Proof.
  intro H. split; [apply Rmult_le_pos; [lra|apply pow_le; lra]|].
  assert (S : 0 <= (q - / 4) ^ 2 * (q * q - 5 / 2 * q + 27 / 16)) by (apply Rmult_le_pos; [apply pow2_ge_0|nra]).
  replace ((q - / 4) ^ 2 * (q * q - 5 / 2 * q + 27 / 16)) with (27 / 256 - q * (1 - q) ^ 3) in S by field. lra.
Qed.
Lemma shape_lipschitz p q : 0 <= p <= 1 -> 0 <= q <= 1 -> Rabs (shape p - shape q) <= 135 / 64 * Rabs (p - q).
Proof.
  intros Hp Hq. destruct (MVT_abs shape (fun q => - (20 * q * (1 - q) ^ 3)) q p) as (c & E & Hc).
  { intros c _. apply shape_slope. }
  rewrite E. apply Rmult_le_compat_r; [apply Rabs_pos|]. rewrite Rabs_Ropp.
  assert (0 <= c <= 1) as C. { revert Hc. unfold Rmin, Rmax. destruct (Rle_dec q p); lra. }
  pose proof (slope_bound c C). rewrite Rabs_pos_eq; lra.
Qed.
Definition clip (q : R) : R := Rmin q 1.
Lemma cut_clip q : 0 <= q -> cut_shape q = shape (clip q).
Proof.
  intro H. unfold cut_shape, clip, Rmin. destruct (Rlt_dec q 1), (Rle_dec q 1); try reflexivity; try lra; unfold shape; [replace q with 1 by lra|]; ring.
Qed.
Lemma clip_bound q : 0 <= q -> 0 <= clip q <= 1.
Proof. intro H. unfold clip, Rmin. destruct (Rle_dec q 1); lra. Qed.
Lemma cut_lipschitz p q : 0 <= p -> 0 <= q -> Rabs (cut_shape p - cut_shape q) <= 135 / 64 * Rabs (p - q).
Proof.
  intros Hp Hq. rewrite !cut_clip by assumption. eapply Rle_trans; [apply shape_lipschitz; apply clip_bound; assumption|].
  apply Rmult_le_compat_l; [lra|]. unfold clip, Rmin, Rabs. destruct (Rle_dec p 1), (Rle_dec q 1); repeat destruct Rcase_abs; lra.
Qed.
Lemma cut_scaled q s : 0 <= q -> 0 < s -> Rabs (cut_shape (q * s) - cut_shape q) <= 135 / 64 * Rabs (s - 1).
Proof.
  intros Hq Hs. assert (P : 0 <= q * s) by nra. rewrite !cut_clip by assumption.
  eapply Rle_trans; [apply shape_lipschitz; apply clip_bound; assumption|].
  apply Rmult_le_compat_l; [lra|]. unfold clip, Rmin, Rabs. destruct (Rle_dec (q * s) 1), (Rle_dec q 1); repeat destruct Rcase_abs; nra.
Qed.

(** * The radius *)

Lemma gamma_close : exists g, Rabs (g - 1) <= u24 + 2 * u53 /\ gamma2 rounded = VisModel.gamma2 * g.
Proof.
  unfold gamma2. cbn [rounded single lit]. pose proof u53_value as U. pose proof u24_value as V.
  replace (Q2R (1897367 # 1000000)) with VisModel.gamma2 by (unfold Q2R, VisModel.gamma2; cbn; lra).
  assert (G : 0 < VisModel.gamma2) by (unfold VisModel.gamma2; lra).
  destruct (fac_rnd VisModel.gamma2) as (t & [T1 T2] & ->); [lra|]. rewrite !pow_1 in T1, T2.
  pose proof (rnd24_abs (VisModel.gamma2 * t)) as E. assert (P : 0 < VisModel.gamma2 * t) by nra. rewrite (Rabs_pos_eq (VisModel.gamma2 * t)) in E by lra.
  set (w := rnd 24 (VisModel.gamma2 * t)) in *. exists (w / VisModel.gamma2). split; [|change (@eq R w (VisModel.gamma2 * (w / VisModel.gamma2))); field; lra].
  assert (S : Rabs (w - VisModel.gamma2) <= VisModel.gamma2 * (u24 + 2 * u53)).
  { replace (w - VisModel.gamma2) with ((w - VisModel.gamma2 * t) + VisModel.gamma2 * (t - 1)) by ring. eapply Rle_trans; [apply Rabs_triang|].
    rewrite Rabs_mult, (Rabs_pos_eq VisModel.gamma2) by lra. assert (Rabs (t - 1) <= u53) by (apply Rabs_le; lra). clearbody w.
    set (g := VisModel.gamma2) in *. clearbody g.
    assert (g * t * u24 <= g * (1 + u53) * u24) by (apply Rmult_le_compat_r; nra).
    assert (g * Rabs (t - 1) <= g * u53) by (apply Rmult_le_compat_l; lra).
    assert (g * (u53 * u24) <= g * u53) by (apply Rmult_le_compat_l; nra). nra. }
  replace (w / VisModel.gamma2 - 1) with ((w - VisModel.gamma2) / VisModel.gamma2) by (field; lra).
  unfold Rdiv. rewrite Rabs_mult, (Rabs_pos_eq (/ VisModel.gamma2)) by (apply Rlt_le, Rinv_0_lt_compat; lra).
  apply Rmult_le_reg_r with VisModel.gamma2; [lra|]. rewrite Rmult_assoc, Rinv_l by lra. lra.
Qed.
Lemma width_close h : 0 < h -> exists g, Rabs (g - 1) <= u24 + 4 * u53 /\ mul rounded (gamma2 rounded) h = VisModel.gamma2 * h * g.
Proof.
  intro H. destruct gamma_close as (g & G & E). cbn [rounded mul]. unfold rnd2. rewrite E. pose proof u53_value as U. pose proof u24_value as V.
  apply Rabs_le_inv in G. assert (P : 0 <= VisModel.gamma2 * g * h) by (unfold VisModel.gamma2; apply Rmult_le_pos; nra).
  destruct (fac_rnd _ P) as (t & [T1 T2] & ->). rewrite !pow_1 in T1, T2. exists (g * t). split; [|change (@eq R (VisModel.gamma2 * g * h * t) (VisModel.gamma2 * h * (g * t))); ring].
  apply Rabs_le. nra.
Qed.

(** * Kernels *)

Lemma kernel2_cut r H : 0 <= r -> 0 < H -> VisModel.kernel2 r H = VisModel.kernel2 0 H * cut_shape (r / H).
Proof. intros Hr HH. rewrite centre2, exact2, cut_exact by assumption. ring. Qed.
Lemma centre2_pos H : 0 < H -> 0 < VisModel.kernel2 0 H.
Proof. intro HH. rewrite centre2 by exact HH. apply weight2_pos, HH. Qed.
Lemma cut_bound q : 0 <= q -> 0 <= cut_shape q <= 1.
Proof. intro Hq. rewrite cut_clip by exact Hq. apply shape_bound, clip_bound, Hq. Qed.

(** The computed kernel at a distance that is [rho' * t] for [rho'] within [d] of [rho], and for a radius [H * g]. *)
Lemma kernel_close rho rho' d t g H : 0 < H -> 0 <= rho -> 0 <= rho' -> Rabs (rho' - rho) <= d -> fac 3 t -> Rabs (g - 1) <= u24 + 4 * u53 ->
  Rabs (kernel2 rounded (single rounded) (rho' * t) (H * g) - VisModel.kernel2 rho H) <= VisModel.kernel2 0 H * (11 / 2 * u24 + 135 / 64 * (d / H)).
Proof.
  intros HH Hr Hr' D F G. pose proof u53_value as U. pose proof u24_value as V. pose proof (fac_pos _ _ F) as T0.
  apply fac_error in F; [|lia]. apply Rabs_le_inv in G, F. assert (g0 : 0 < g) by lra. assert (HG : 0 < H * g) by (apply Rmult_lt_0_compat; lra).
  assert (RT : 0 <= rho' * t) by (apply Rmult_le_pos; lra). pose proof (C133_projection_single (rho' * t) (H * g) RT HG) as K.
  rewrite (kernel2_cut (rho' * t)) in K by assumption. rewrite (kernel2_cut rho) by assumption.
  set (k := kernel2 rounded (single rounded) (rho' * t) (H * g)) in *. clearbody k.
  assert (Ig : 0 < / g) by (apply Rinv_0_lt_compat; exact g0). assert (gV : g * / g = 1) by (field; lra).
  assert (Kg : VisModel.kernel2 0 (H * g) = VisModel.kernel2 0 H * (/ g * / g)) by (rewrite !centre2 by assumption; field; split; lra).
  pose proof (centre2_pos H HH) as K0. rewrite Kg in K. set (w := VisModel.kernel2 0 H) in *. clearbody w. clear Kg.
  assert (q0 : 0 <= rho / H) by (apply Rmult_le_pos; [lra|apply Rlt_le, Rinv_0_lt_compat; exact HH]).
  assert (q1 : 0 <= rho' / H) by (apply Rmult_le_pos; [lra|apply Rlt_le, Rinv_0_lt_compat; exact HH]).
  assert (Eq : rho' * t / (H * g) = rho' / H * (t * / g)) by (field; split; lra). rewrite Eq in K.
  assert (S0 : 0 < t * / g) by (apply Rmult_lt_0_compat; lra).
  pose proof (cut_scaled (rho' / H) (t * / g) q1 S0) as C1. pose proof (cut_lipschitz (rho' / H) (rho / H) q1 q0) as C2.
  assert (q2 : 0 <= rho' / H * (t * / g)) by (apply Rmult_le_pos; lra).
  pose proof (cut_bound _ q2) as B. set (c := cut_shape (rho' / H * (t * / g))) in *. set (c' := cut_shape (rho' / H)) in *. set (c0 := cut_shape (rho / H)) in *.
  clearbody c c' c0.
  assert (C2' : Rabs (c' - c0) <= 135 / 64 * (d / H)).
  { eapply Rle_trans; [exact C2|]. apply Rmult_le_compat_l; [lra|]. replace (rho' / H - rho / H) with ((rho' - rho) * / H) by (field; lra).
    assert (0 < / H) by (apply Rinv_0_lt_compat; exact HH). rewrite Rabs_mult, (Rabs_pos_eq (/ H)) by lra. apply Rmult_le_compat_r; lra. }
  (* 1/g and t/g *)
  assert (g1 : 1 - (u24 + 4 * u53) <= / g <= 1 + 1001 / 1000 * u24) by (split; nra).
  assert (s1 : Rabs (t * / g - 1) <= 1002 / 1000 * u24) by (apply Rabs_le; split; nra).
  assert (gg : Rabs (/ g * / g - 1) <= 2004 / 1000 * u24) by (apply Rabs_le; split; nra).
  assert (C1' : Rabs (c - c') <= 135 / 64 * (1002 / 1000 * u24)) by (eapply Rle_trans; [exact C1|]; apply Rmult_le_compat_l; lra).
  set (j := / g * / g) in *. clearbody j.
  assert (K' : Rabs (k - w * j * c) <= w * (1004 / 1000 * u24)).
  { eapply Rle_trans; [exact K|]. apply Rabs_le_inv in gg. replace ((u24 + 82 * u53) * (w * j)) with (w * ((u24 + 82 * u53) * j)) by ring. apply Rmult_le_compat_l; [lra|]. nra. }
  replace (k - w * c0) with ((k - w * j * c) + w * ((j - 1) * c + ((c - c') + (c' - c0)))) by ring.
  eapply Rle_trans; [apply Rabs_triang|]. rewrite Rabs_mult, (Rabs_pos_eq w) by lra.
  assert (M : Rabs ((j - 1) * c + (c - c' + (c' - c0))) <= 2004 / 1000 * u24 + (135 / 64 * (1002 / 1000 * u24) + 135 / 64 * (d / H))).
  { eapply Rle_trans; [apply Rabs_triang|]. apply Rplus_le_compat; [|eapply Rle_trans; [apply Rabs_triang|]; lra].
    rewrite Rabs_mult, (Rabs_pos_eq c) by lra. pose proof (Rabs_pos (j - 1)). nra. }
  apply Rle_trans with (w * (1004 / 1000 * u24) + w * (2004 / 1000 * u24 + (135 / 64 * (1002 / 1000 * u24) + 135 / 64 * (d / H)))).
  - apply Rplus_le_compat; [exact K'|]. apply Rmult_le_compat_l; lra.
  - rewrite <- Rmult_plus_distr_l. apply Rmult_le_compat_l; lra.
Qed.

(** * Single writes *)

(** The exact value for a pixel, and how far the computed one can be off. *)
Definition exact_value (n : Z) (m h x y : R) (i j : Z) : R :=
  let dx := centre n i - x in let dy := centre n j - y in
  m * VisModel.kernel2 (sqrt (dx * dx + dy * dy)) (VisModel.gamma2 * h).
Definition pixel_error (m h x y : R) : R :=
  Rabs m * VisModel.kernel2 0 (VisModel.gamma2 * h) * (6 * u24 + 17 / 8 * ((off x + off y) / (VisModel.gamma2 * h))).
Definition computed_value (n : Z) (m h x y : R) (i j : Z) : R :=
  let pixel_width := div rounded (one rounded) (single rounded (of_int rounded n)) in
  mul rounded m (kernel2 rounded (single rounded)
    (root rounded (add rounded (square_of rounded (distance rounded (single rounded) pixel_width i x))
                               (square_of rounded (distance rounded (single rounded) pixel_width j y))))
    (mul rounded (gamma2 rounded) h)).

Theorem C143_value : forall n m h x y i j, (1 <= n < 2 ^ 24)%Z -> (0 <= i < n)%Z -> (0 <= j < n)%Z -> 0 < h ->
  Rabs (computed_value n m h x y i j - exact_value n m h x y i j) <= pixel_error m h x y.
Proof.
  intros n m h x y i j Hn Hi Hj Hh. unfold computed_value, exact_value, pixel_error. cbv zeta.
  pose proof (distance_close n i x Hn Hi) as Dx. pose proof (distance_close n j y Hn Hj) as Dy.
  set (dx := distance rounded _ _ i x) in *. set (dy := distance rounded _ _ j y) in *.
  destruct (root_value dx dy) as (t & Ft & ->). destruct (width_close h Hh) as (g & Gg & ->).
  pose proof (root_triangle dx dy (centre n i - x) (centre n j - y)) as T.
  assert (HH : 0 < VisModel.gamma2 * h) by (unfold VisModel.gamma2; lra).
  set (H := VisModel.gamma2 * h) in *. clearbody H.
  pose proof (kernel_close (sqrt ((centre n i - x) * (centre n i - x) + (centre n j - y) * (centre n j - y))) (sqrt (dx * dx + dy * dy)) (off x + off y) t g H HH
    (sqrt_pos _) (sqrt_pos _) ltac:(eapply Rle_trans; [exact T|]; apply Rplus_le_compat; assumption) Ft Gg) as K.
  cbn [rounded mul]. unfold rnd2.
  set (k := kernel2 rounded (single rounded) (sqrt (dx * dx + dy * dy) * t) (H * g)) in *. 
  set (r := sqrt ((centre n i - x) * (centre n i - x) + (centre n j - y) * (centre n j - y))) in *. assert (Hr : 0 <= r) by apply sqrt_pos.
  pose proof (centre2_pos H HH) as W. assert (Q : 0 <= VisModel.kernel2 r H <= VisModel.kernel2 0 H).
  { rewrite (kernel2_cut r H Hr HH). pose proof (cut_bound (r / H) ltac:(apply Rmult_le_pos; [exact Hr|apply Rlt_le, Rinv_0_lt_compat; exact HH])). nra. }
  set (e := VisModel.kernel2 r H) in *. set (w := VisModel.kernel2 0 H) in *.
  assert (Pd : 0 <= (off x + off y) / H).
  { pose proof (off_pos x). pose proof (off_pos y). apply Rmult_le_pos; [lra|apply Rlt_le, Rinv_0_lt_compat; exact HH]. }
  set (q := (off x + off y) / H) in *. clearbody q e w r. clear T Dx Dy. clearbody k. change (num rounded) with R in k.
  pose proof u53_value as U. pose proof u24_value as V. pose proof (rnd_error_abs (m * k)) as E. pose proof (Rabs_pos m) as Pm.
  assert (B : Rabs k <= w * (2 + 3 * q)).
  { replace k with ((k - e) + e) by ring. eapply Rle_trans; [apply Rabs_triang|]. rewrite (Rabs_pos_eq e) by lra. nra. }
  replace (rnd 53 (m * k) - m * e) with ((rnd 53 (m * k) - m * k) + m * (k - e)) by ring.
  eapply Rle_trans; [apply Rabs_triang|]. rewrite Rabs_mult in E. rewrite Rabs_mult.
  assert (X1 : Rabs m * Rabs k * u53 <= Rabs m * (w * (2 + 3 * q)) * u53).
  { apply Rmult_le_compat_r; [lra|]. apply Rmult_le_compat_l; assumption. }
  assert (X2 : Rabs m * Rabs (k - e) <= Rabs m * (w * (11 / 2 * u24 + 135 / 64 * q))) by (apply Rmult_le_compat_l; assumption).
  apply Rle_trans with (Rabs m * w * ((2 + 3 * q) * u53 + (11 / 2 * u24 + 135 / 64 * q))); [nra|].
  apply Rmult_le_compat_l; [apply Rmult_le_pos; lra|]. nra.
Qed.

(** * Which pixels are written *)

Lemma cell_close n x : cell_of rounded (double rounded (of_int rounded n)) x = Zfloor (rnd 53 (IZR n * x)).
Proof. unfold cell_of. cbn [rounded int32 floor double of_int mul]. unfold rnd2. now rewrite Ztrunc_IZR. Qed.
Lemma cell_bounds n x : Rabs (IZR n * x) <= 2 ^ 30 ->
  IZR (cell_of rounded (double rounded (of_int rounded n)) x) - / 8 <= IZR n * x < IZR (cell_of rounded (double rounded (of_int rounded n)) x) + 1 + / 8.
Proof.
  intro B. rewrite cell_close. pose proof (rnd_error_abs (IZR n * x)) as E. set (v := rnd 53 (IZR n * x)) in *.
  pose proof (Zfloor_lb v). pose proof (Zfloor_ub v).
  assert (E' : Rabs (v - IZR n * x) <= / 8).
  { eapply Rle_trans; [exact E|]. apply Rle_trans with (2 ^ 30 * u53); [apply Rmult_le_compat_r; [pose proof u53_value; lra|exact B]|]. unfold WrapSpec.u53. lra. }
  apply Rabs_le_inv in E'. lra.
Qed.
Lemma span_bounds n h : (1 <= n < 2 ^ 24)%Z -> 0 < h -> IZR n * (VisModel.gamma2 * h) <= 2 ^ 21 ->
  IZR n * (VisModel.gamma2 * h) - / 4 < IZR (span rounded (single rounded (of_int rounded n)) (mul rounded (gamma2 rounded) h)).
Proof.
  intros Hn Hh B. destruct (width_close h Hh) as (g & G & ->). unfold span, one. cbn [rounded int32 single of_int add mul lit]. unfold rnd2.
  rewrite lit_1, single_int by lia. assert (N : 0 < IZR n) by (apply IZR_lt; lia).
  assert (HH : 0 < VisModel.gamma2 * h) by (unfold VisModel.gamma2; lra). set (H := VisModel.gamma2 * h) in *. clearbody H.
  apply Rabs_le_inv in G. pose proof u53_value as U. pose proof u24_value as V.
  set (p := IZR n * H) in *. assert (p0 : 0 < p) by (apply Rmult_lt_0_compat; lra).
  replace (H * g * IZR n) with (p * g) by (unfold p; ring). clearbody p.
  assert (pg : 0 <= p * g) by (apply Rmult_le_pos; lra).
  destruct (fac_rnd (p * g) pg) as (a & [A1 A2] & ->). rewrite !pow_1 in A1, A2.
  assert (pga : 0 <= p * g * a) by (apply Rmult_le_pos; lra).
  destruct (fac_rnd (1 + p * g * a)) as (b & [B1 B2] & ->); [lra|]. rewrite !pow_1 in B1, B2.
  rewrite Ztrunc_floor by (apply Rmult_le_pos; lra).
  pose proof (Zfloor_ub ((1 + p * g * a) * b)) as F. set (s := IZR (Zfloor ((1 + p * g * a) * b))) in *. clearbody s.
  assert (gab : 1 - 1001 / 1000 * u24 <= g * a * b) by (assert (1 - 10005 / 10000 * u24 <= g * a) by nra; nra).
  assert (X : (1 + p * g * a) * b >= 1 - u53 + p * (1 - 1001 / 1000 * u24)).
  { replace ((1 + p * g * a) * b) with (b + p * (g * a * b)) by ring. assert (p * (1 - 1001 / 1000 * u24) <= p * (g * a * b)) by (apply Rmult_le_compat_l; lra). lra. }
  assert (Y : p * u24 <= / 8). { apply Rle_trans with (2 ^ 21 * u24); [apply Rmult_le_compat_r; lra|]. unfold u24. lra. }
  lra.
Qed.

(** A pixel that is not reached is at least a radius away. *)
Lemma not_reached n h x i : (1 <= n < 2 ^ 24)%Z -> 0 < h -> IZR n * (VisModel.gamma2 * h) <= 2 ^ 21 -> Rabs (IZR n * x) <= 2 ^ 30 ->
  let c := cell_of rounded (double rounded (of_int rounded n)) x in
  let s := span rounded (single rounded (of_int rounded n)) (mul rounded (gamma2 rounded) h) in
  ~ (c - s <= i <= c + s)%Z -> VisModel.gamma2 * h <= Rabs (centre n i - x).
Proof.
  intros Hn Hh B Bx. cbv zeta. pose proof (cell_bounds n x Bx) as C. pose proof (span_bounds n h Hn Hh B) as S'.
  set (c := cell_of rounded _ x) in *. set (s := span rounded _ _) in *. clearbody c s. intro O.
  assert (N : 0 < IZR n) by (apply IZR_lt; lia). assert (HH : 0 < VisModel.gamma2 * h) by (unfold VisModel.gamma2; lra).
  set (H := VisModel.gamma2 * h) in *. clearbody H. assert (NH : 0 < IZR n * H) by (apply Rmult_lt_0_compat; assumption).
  assert (E : IZR n * (centre n i - x) = IZR i + / 2 - IZR n * x) by (unfold centre; field; lra).
  assert (K : IZR n * H <= Rabs (IZR n * (centre n i - x))).
  { rewrite E. assert (O' : (i <= c - s - 1)%Z \/ (c + s + 1 <= i)%Z) by lia. destruct O' as [O'|O']; apply IZR_le in O'.
    - rewrite !minus_IZR in O'. rewrite Rabs_left1; lra.
    - rewrite !plus_IZR in O'. rewrite Rabs_pos_eq; lra. }
  rewrite Rabs_mult, (Rabs_pos_eq (IZR n)) in K by lra. apply Rmult_le_reg_l with (IZR n); assumption.
Qed.

Lemma kernel2_outside r H : 0 < H -> H <= r -> VisModel.kernel2 r H = 0.
Proof.
  intros HH Hr. rewrite kernel2_cut by lra. assert (Q : 1 <= r / H). { apply Rmult_le_reg_r with H; [lra|]. unfold Rdiv. rewrite Rmult_assoc, Rinv_l by lra. lra. }
  unfold cut_shape. destruct (Rlt_dec (r / H) 1); lra.
Qed.
Lemma far_axis a b : Rabs a <= sqrt (a * a + b * b) /\ Rabs b <= sqrt (a * a + b * b).
Proof.
  rewrite <- !sqrt_Rsqr_abs. unfold Rsqr. pose proof (Rle_0_sqr a) as X. pose proof (Rle_0_sqr b) as Y. unfold Rsqr in X, Y. split; apply sqrt_le_1_alt; lra.
Qed.

(** * Sums over the loops *)

Lemma summed_app g c l l' : summed g c (l ++ l') = summed g c l + summed g c l'.
Proof. induction l as [|[d v] l IH]; cbn [app summed]; [lra|]. rewrite IH. lra. Qed.
Lemma summed_row g (i i' j : Z) (f : Z -> R) ys : NoDup ys ->
  summed g [i; j] (map (fun k => ([i'; k], f k)) ys) = if Z.eq_dec i' i then if in_dec Z.eq_dec j ys then g (f j) else 0 else 0.
Proof.
  intro D. induction D as [|k ys N D IH]; [cbn; now destruct (Z.eq_dec i' i)|]. cbn [map summed]. rewrite IH. clear IH.
  destruct (list_eq_dec Z.eq_dec [i'; k] [i; j]) as [E|E].
  - injection E as -> ->. destruct (Z.eq_dec i i); [|congruence]. destruct (in_dec Z.eq_dec j ys); [contradiction|].
    destruct (in_dec Z.eq_dec j (j :: ys)) as [|X]; [lra|]. exfalso. apply X. now left.
  - destruct (Z.eq_dec i' i) as [->|]; [|lra]. destruct (in_dec Z.eq_dec j ys) as [I|I]; destruct (in_dec Z.eq_dec j (k :: ys)) as [I'|I']; try lra.
    + exfalso. apply I'. now right.
    + destruct I' as [->|]; [now destruct E|contradiction].
Qed.
Lemma summed_over g (i j : Z) (f : Z -> Z -> R) xs ys : NoDup xs -> NoDup ys ->
  summed g [i; j] (over2 rounded xs ys f) = if in_dec Z.eq_dec i xs then if in_dec Z.eq_dec j ys then g (f i j) else 0 else 0.
Proof.
  intros D D'. unfold over2. induction D as [|k xs N D IH]; [reflexivity|]. cbn [flat_map]. rewrite summed_app, IH. clear IH.
  etransitivity; [apply (f_equal (fun z => z + _)); exact (summed_row g i k j (f k) ys D')|]. destruct (Z.eq_dec k i) as [->|K].
  - destruct (in_dec Z.eq_dec i xs); [contradiction|]. destruct (in_dec Z.eq_dec i (i :: xs)) as [|X]; [destruct (in_dec Z.eq_dec j ys); lra|]. exfalso. apply X. now left.
  - destruct (in_dec Z.eq_dec i xs) as [I|I]; destruct (in_dec Z.eq_dec i (k :: xs)) as [I'|I']; try (destruct (in_dec Z.eq_dec j ys); lra).
    + exfalso. apply I'. now right.
    + destruct I' as [|]; contradiction.
Qed.

(** Every pixel of the image, written or not: the kernel covers more than one pixel. *)
Definition wide (n : Z) (h : R) : Prop := (1 < span rounded (single rounded (of_int rounded n)) (mul rounded (gamma2 rounded) h))%Z.
Lemma copy_value n m h x y i j : (1 <= n < 2 ^ 24)%Z -> (0 <= i < n)%Z -> (0 <= j < n)%Z -> 0 < h ->
  wide n h -> IZR n * (VisModel.gamma2 * h) <= 2 ^ 21 -> Rabs (IZR n * x) <= 2 ^ 30 -> Rabs (IZR n * y) <= 2 ^ 30 ->
  (forall g, summed g [i; j] (fast_at rounded n m h x y) = g (computed_value n m h x y i j))
  \/ ((forall g, summed g [i; j] (fast_at rounded n m h x y) = 0) /\ exact_value n m h x y i j = 0).
Proof.
  intros Hn Hi Hj Hh W B Bx By. unfold wide in W.
  pose proof (not_reached n h x i Hn Hh B Bx) as Nx. pose proof (not_reached n h y j Hn Hh B By) as Ny. cbv zeta in Nx, Ny.
  unfold fast_at. cbv zeta. set (s := span rounded _ _) in *. set (cx := cell_of rounded _ x) in *. set (cy := cell_of rounded _ y) in *.
  assert (HH : 0 < VisModel.gamma2 * h) by (unfold VisModel.gamma2; lra).
  assert (Z0 : ~ (cx - s <= i <= cx + s /\ cy - s <= j <= cy + s)%Z -> exact_value n m h x y i j = 0).
  { intro O. unfold exact_value. cbv zeta. rewrite kernel2_outside; [apply Rmult_0_r|exact HH|].
    destruct (far_axis (centre n i - x) (centre n j - y)) as [X Y].
    assert (O' : ~ (cx - s <= i <= cx + s)%Z \/ ~ (cy - s <= j <= cy + s)%Z) by lia. destruct O' as [O'|O']; [specialize (Nx O')|specialize (Ny O')]; lra. }
  destruct (outside n cx s || outside n cy s) eqn:Out.
  - right. split; [reflexivity|]. apply Z0. unfold outside in Out. rewrite !orb_true_iff, !Z.ltb_lt in Out. lia.
  - destruct (s <=? 1)%Z eqn:L; [apply Z.leb_le in L; lia|].
    destruct (in_dec Z.eq_dec i (span_range n (cx - s) (cx + s + 1))) as [I|I]; [destruct (in_dec Z.eq_dec j (span_range n (cy - s) (cy + s + 1))) as [J|J]|].
    + left. intro g. rewrite summed_over by (unfold span_range; apply NoDup_zrange).
      destruct (in_dec Z.eq_dec i _); [|contradiction]. destruct (in_dec Z.eq_dec j _); [reflexivity|contradiction].
    + right. split; [|apply Z0; unfold span_range in J; rewrite In_zrange in J; lia]. intro g. rewrite summed_over by (unfold span_range; apply NoDup_zrange).
      destruct (in_dec Z.eq_dec i _); [|contradiction]. destruct (in_dec Z.eq_dec j _); [contradiction|reflexivity].
    + right. split; [|apply Z0; unfold span_range in I; rewrite In_zrange in I; lia]. intro g. rewrite summed_over by (unfold span_range; apply NoDup_zrange).
      destruct (in_dec Z.eq_dec i _); [contradiction|reflexivity].
Qed.
Lemma pixel_error_pos m h x y : 0 < h -> 0 <= pixel_error m h x y.
Proof.
  intro Hh. assert (HH : 0 < VisModel.gamma2 * h) by (unfold VisModel.gamma2; lra). unfold pixel_error. pose proof (centre2_pos _ HH). pose proof (Rabs_pos m). pose proof u24_value.
  apply Rmult_le_pos; [apply Rmult_le_pos; lra|]. pose proof (off_pos x). pose proof (off_pos y).
  assert (0 <= (off x + off y) / (VisModel.gamma2 * h)) by (apply Rmult_le_pos; [lra|apply Rlt_le, Rinv_0_lt_compat; exact HH]). lra.
Qed.

Theorem C143_copy : forall n m h x y i j, (1 <= n < 2 ^ 24)%Z -> (0 <= i < n)%Z -> (0 <= j < n)%Z -> 0 < h ->
  wide n h -> IZR n * (VisModel.gamma2 * h) <= 2 ^ 21 -> Rabs (IZR n * x) <= 2 ^ 30 -> Rabs (IZR n * y) <= 2 ^ 30 ->
  Rabs (summed (fun v => v) [i; j] (fast_at rounded n m h x y) - exact_value n m h x y i j) <= pixel_error m h x y.
Proof.
  intros n m h x y i j Hn Hi Hj Hh W B Bx By.
  destruct (copy_value n m h x y i j Hn Hi Hj Hh W B Bx By) as [E|[E ->]]; rewrite E.
  - exact (C143_value n m h x y i j Hn Hi Hj Hh).
  - rewrite Rminus_0_r, Rabs_R0. apply pixel_error_pos, Hh.
Qed.

(** Kernels of at least five quarters of a pixel are wide. *)
Theorem C143_wide : forall n h, (1 <= n < 2 ^ 24)%Z -> 0 < h -> 5 / 4 <= IZR n * (VisModel.gamma2 * h) <= 2 ^ 21 -> wide n h.
Proof. intros n h Hn Hh [B1 B2]. unfold wide. pose proof (span_bounds n h Hn Hh B2) as S'. apply lt_IZR. lra. Qed.

(** * Images *)

(** The periodic copies of the particles, at the positions that are computed for them. *)
Record copy := mk_copy { k_m : R; k_h : R; k_x : R; k_y : R }.
Definition copies (bx by_ : R) (ps : list (rpart rounded)) : list copy :=
  flat_map (fun p : rpart rounded => flat_map (fun sx => map (fun sy => mk_copy (r_m p) (r_h p) (shifted rounded (r_x p) sx bx) (shifted rounded (r_y p) sy by_))
    (shifts rounded by_)) (shifts rounded bx)) ps.
Fixpoint total (f : copy -> R) (ks : list copy) : R := match ks with [] => 0 | k :: t => f k + total f t end.
Definition exact_of (n i j : Z) (k : copy) : R := exact_value n (k_m k) (k_h k) (k_x k) (k_y k) i j.
Definition error_of (k : copy) : R := pixel_error (k_m k) (k_h k) (k_x k) (k_y k).
Definition resolved (n : Z) (k : copy) : Prop :=
  0 < k_h k /\ 5 / 4 <= IZR n * (VisModel.gamma2 * k_h k) <= 2 ^ 21 /\ Rabs (IZR n * k_x k) <= 2 ^ 30 /\ Rabs (IZR n * k_y k) <= 2 ^ 30.

Definition writes_of (n : Z) (k : copy) : list (list Z * R) := fast_at rounded n (k_m k) (k_h k) (k_x k) (k_y k).
Lemma copies_written n bx by_ ps : flat_map (fast_part rounded n bx by_) ps = flat_map (writes_of n) (copies bx by_ ps).
Proof.
  induction ps as [|p ps IH]; [reflexivity|]. unfold copies in *. cbn [flat_map]. rewrite flat_map_app, <- IH. apply (f_equal2 (@app _)); [|reflexivity].
  unfold fast_part, copies2. generalize (shifts rounded bx). induction l as [|sx l IH']; [reflexivity|]. cbn [flat_map]. rewrite flat_map_app, <- IH'. apply (f_equal2 (@app _)); [|reflexivity].
  generalize (shifts rounded by_). induction l0 as [|sy l0 IH'']; [reflexivity|]. cbn [flat_map map]. apply (f_equal2 (@app _)); [reflexivity|exact IH''].
Qed.
Lemma times_summed c ws : INR (times c ws) = summed (fun _ => 1) c ws.
Proof. induction ws as [|[d v] ws IH]; [reflexivity|]. cbn [times summed]. destruct (list_eq_dec Z.eq_dec d c); [rewrite S_INR|]; rewrite IH; lra. Qed.

Lemma copies_sums n i j ks : (1 <= n < 2 ^ 24)%Z -> (0 <= i < n)%Z -> (0 <= j < n)%Z -> Forall (resolved n) ks ->
  Rabs (summed (fun v => v) [i; j] (flat_map (writes_of n) ks) - total (exact_of n i j) ks) <= total error_of ks
  /\ summed Rabs [i; j] (flat_map (writes_of n) ks) <= total (fun k => Rabs (exact_of n i j k) + error_of k) ks
  /\ summed (fun _ => 1) [i; j] (flat_map (writes_of n) ks) <= INR (length ks).
Proof.
  intros Hn Hi Hj F. induction F as [|k ks (Hh & B & Bx & By) F (IH1 & IH2 & IH3)].
  { cbn. rewrite Rminus_0_r, Rabs_R0. repeat split; lra. }
  cbn [flat_map total length]. rewrite !summed_app, S_INR. pose proof (C143_wide n (k_h k) Hn Hh B) as W.
  pose proof (C143_copy n (k_m k) (k_h k) (k_x k) (k_y k) i j Hn Hi Hj Hh W (proj2 B) Bx By) as C.
  pose proof (copy_value n (k_m k) (k_h k) (k_x k) (k_y k) i j Hn Hi Hj Hh W (proj2 B) Bx By) as V.
  fold (writes_of n k) in C, V. fold (error_of k) in C. fold (exact_of n i j k) in C, V.
  assert (P : 0 <= error_of k) by (apply pixel_error_pos; exact Hh).
  repeat match goal with |- _ /\ _ => split end.
  - match goal with |- Rabs (?a + ?b - (?c + ?d)) <= _ => replace (a + b - (c + d)) with ((a - c) + (b - d)) by ring end.
    eapply Rle_trans; [apply Rabs_triang|]. apply Rplus_le_compat; assumption.
  - apply Rplus_le_compat; [|exact IH2]. destruct V as [E|[E E0]].
    + rewrite E. rewrite (E (fun v => v)) in C. cbn beta in C. set (v := computed_value _ _ _ _ _ _ _) in *. set (e := exact_of n i j k) in *.
      replace v with ((v - e) + e) by ring. pose proof (Rabs_triang (v - e) e). lra.
    + rewrite E. pose proof (Rabs_pos (exact_of n i j k)). lra.
  - destruct V as [E|[E _]]; rewrite E; lra.
Qed.

Theorem C143_image : forall store u n bx by_ ps i j, stored store u -> (1 <= n < 2 ^ 24)%Z -> (0 <= i < n)%Z -> (0 <= j < n)%Z ->
  let ks := copies bx by_ ps in Forall (resolved n) ks ->
  Rabs (draw rounded store (flat_map (fast_part rounded n bx by_) ps) [i; j] - total (exact_of n i j) ks)
  <= total error_of ks + ((1 + u) ^ length ks - 1) * total (fun k => Rabs (exact_of n i j k) + error_of k) ks.
Proof.
  intros store u n bx by_ ps i j St Hn Hi Hj ks F. rewrite copies_written. fold ks.
  destruct (copies_sums n i j ks Hn Hi Hj F) as (S1 & S2 & S3).
  pose proof (C115_pixel store u (flat_map (writes_of n) ks) [i; j] St) as P. unfold within_roundings in P.
  assert (U0 : 0 <= u).
  { destruct St; unfold eps; repeat match goal with |- context [bpow radix2 ?e] => lazymatch goal with X : 0 < bpow radix2 e |- _ => fail | _ => pose proof (bpow_gt_0 radix2 e) end end; nra. }
  rewrite <- times_summed in S3. apply INR_le in S3.
  assert (PW : (1 + u) ^ times [i; j] (flat_map (writes_of n) ks) - 1 <= (1 + u) ^ length ks - 1) by (apply Rplus_le_compat_r, Rle_pow; [lra|exact S3]).
  assert (P0 : 0 <= (1 + u) ^ times [i; j] (flat_map (writes_of n) ks) - 1) by (pose proof (pow_R1_Rle (1 + u) (times [i; j] (flat_map (writes_of n) ks)) ltac:(lra)); lra).
  set (d := draw rounded store _ _) in *. set (t := total (exact_of n i j) ks) in *. set (s := summed (fun v => v) _ _) in *.
  set (a := summed Rabs _ _) in *. set (e := total (fun k => Rabs (exact_of n i j k) + error_of k) ks) in *. set (p := (1 + u) ^ times _ _ - 1) in *. set (q := (1 + u) ^ length ks - 1) in *.
  assert (A0 : 0 <= a).
  { unfold a. clear. induction (flat_map (writes_of n) ks) as [|[c v] l IH]; cbn [summed]; [lra|]. pose proof (Rabs_pos v). destruct (list_eq_dec Z.eq_dec c [i; j]); lra. }
  assert (M : p * a <= q * e) by (apply Rmult_le_compat; assumption).
  change (num rounded) with R in d. replace (d - t) with ((s - t) + (d - s)) by ring. eapply Rle_trans; [apply Rabs_triang|].
  apply Rplus_le_compat; [exact S1|]. eapply Rle_trans; [exact P|exact M].
Qed.

(** * Periodic copies at their exact positions *)

Lemma exact_moved n m h x y x' y' i j : 0 < h ->
  Rabs (exact_value n m h x y i j - exact_value n m h x' y' i j)
  <= Rabs m * VisModel.kernel2 0 (VisModel.gamma2 * h) * (17 / 8 * ((Rabs (x - x') + Rabs (y - y')) / (VisModel.gamma2 * h))).
Proof.
  intro Hh. unfold exact_value. cbv zeta. assert (HH : 0 < VisModel.gamma2 * h) by (unfold VisModel.gamma2; lra). set (H := VisModel.gamma2 * h) in *. clearbody H.
  pose proof (root_triangle (centre n i - x) (centre n j - y) (centre n i - x') (centre n j - y')) as T.
  replace (centre n i - x - (centre n i - x')) with (- (x - x')) in T by ring. replace (centre n j - y - (centre n j - y')) with (- (y - y')) in T by ring. rewrite !Rabs_Ropp in T.
  set (r := sqrt _) in T at 1. set (r' := sqrt _) in T at 1. assert (r0 : 0 <= r) by apply sqrt_pos. assert (r0' : 0 <= r') by apply sqrt_pos.
  fold r r'. rewrite (kernel2_cut r), (kernel2_cut r') by assumption. pose proof (centre2_pos H HH) as W.
  assert (I : 0 < / H) by (apply Rinv_0_lt_compat; exact HH).
  pose proof (cut_lipschitz (r / H) (r' / H) ltac:(apply Rmult_le_pos; lra) ltac:(apply Rmult_le_pos; lra)) as L.
  replace (r / H - r' / H) with ((r - r') * / H) in L by (field; lra). rewrite Rabs_mult, (Rabs_pos_eq (/ H)) in L by lra.
  set (w := VisModel.kernel2 0 H) in *. set (d := Rabs (x - x') + Rabs (y - y')) in *.
  replace (m * (w * cut_shape (r / H)) - m * (w * cut_shape (r' / H))) with (m * w * (cut_shape (r / H) - cut_shape (r' / H))) by ring.
  rewrite !Rabs_mult, (Rabs_pos_eq w) by lra. apply Rmult_le_compat_l; [apply Rmult_le_pos; [apply Rabs_pos|lra]|].
  eapply Rle_trans; [exact L|]. unfold Rdiv at 3. assert (Rabs (r - r') * / H <= d * / H) by (apply Rmult_le_compat_r; lra).
  pose proof (Rabs_pos (r - r')). assert (0 <= d * / H) by (apply Rmult_le_pos; lra). lra.
Qed.
Lemma shifted_close x s b : Rabs (shifted rounded x s b - (x + IZR s * b)) <= u53 * (Rabs x + 3 * Rabs (IZR s * b)).
Proof.
  unfold shifted. cbn [rounded add mul of_int]. unfold rnd2. set (c := IZR s * b). pose proof (rnd_error_abs c) as E. set (c' := rnd 53 c) in *.
  pose proof (rnd_error_abs (x + c')) as D. set (v := rnd 53 (x + c')) in *. clearbody c c' v. pose proof u53_value as U.
  pose proof (Rabs_triang x c') as T. assert (C : Rabs c' <= Rabs c * (1 + u53)).
  { replace c' with ((c' - c) + c) by ring. pose proof (Rabs_triang (c' - c) c). lra. }
  replace (v - (x + c)) with ((v - (x + c')) + (c' - c)) by ring. eapply Rle_trans; [apply Rabs_triang|].
  pose proof (Rabs_pos c) as P. pose proof (Rabs_pos x) as P'.
  assert (Rabs (x + c') * u53 <= (Rabs x + Rabs c * (1 + u53)) * u53) by (apply Rmult_le_compat_r; lra).
  assert (Rabs c * (u53 * u53) <= Rabs c * u53) by (apply Rmult_le_compat_l; nra). lra.
Qed.

(** What the loops go through, and a copy at its exact position. *)
Definition turns (bx by_ : R) (ps : list (rpart rounded)) : list (rpart rounded * Z * Z) :=
  flat_map (fun p => flat_map (fun sx => map (fun sy => (p, sx, sy)) (shifts rounded by_)) (shifts rounded bx)) ps.
Definition image_at (bx by_ : R) (t : rpart rounded * Z * Z) : copy :=
  let '(p, sx, sy) := t in mk_copy (r_m p) (r_h p) (r_x p + IZR sx * bx)%R (r_y p + IZR sy * by_)%R.
(** What the rounding of the position adds. *)
Definition moved_error (bx by_ : R) (t : rpart rounded * Z * Z) : R :=
  let '(p, sx, sy) := t in
  (Rabs (r_m p) * VisModel.kernel2 0 (VisModel.gamma2 * r_h p)
   * (17 / 8 * (u53 * (Rabs (r_x p) + 3 * Rabs (IZR sx * bx) + (Rabs (r_y p) + 3 * Rabs (IZR sy * by_))) / (VisModel.gamma2 * r_h p))))%R.
Definition copy_at (bx by_ : R) (t : rpart rounded * Z * Z) : copy :=
  let '(p, sx, sy) := t in mk_copy (r_m p) (r_h p) (shifted rounded (r_x p) sx bx) (shifted rounded (r_y p) sy by_).
Definition sum {A} (f : A -> R) (l : list A) : R := fold_right (fun a t => f a + t) 0 l.

Lemma copies_turns bx by_ ps : copies bx by_ ps = map (copy_at bx by_) (turns bx by_ ps).
Proof.
  unfold copies, turns. induction ps as [|p ps IH]; [reflexivity|]. cbn [flat_map]. rewrite map_app, <- IH. apply (f_equal2 (@app _)); [|reflexivity].
  generalize (shifts rounded bx). induction l as [|sx l IH']; [reflexivity|]. cbn [flat_map]. rewrite map_app, <- IH', map_map. reflexivity.
Qed.
Lemma moved n bx by_ i j t : 0 < k_h (copy_at bx by_ t) ->
  Rabs (exact_of n i j (copy_at bx by_ t) - exact_of n i j (image_at bx by_ t)) <= moved_error bx by_ t.
Proof.
  destruct t as [[p sx] sy]. cbn [copy_at image_at k_h]. intro Hh. unfold exact_of. cbn [k_m k_h k_x k_y].
  eapply Rle_trans; [apply exact_moved; exact Hh|]. unfold moved_error.
  assert (HH : 0 < VisModel.gamma2 * r_h p) by (unfold VisModel.gamma2; apply Rmult_lt_0_compat; [lra|exact Hh]).
  apply Rmult_le_compat_l; [apply Rmult_le_pos; [apply Rabs_pos|apply Rlt_le, centre2_pos, HH]|]. apply Rmult_le_compat_l; [lra|].
  apply Rmult_le_compat_r; [apply Rlt_le, Rinv_0_lt_compat, HH|]. rewrite Rmult_plus_distr_l. apply Rplus_le_compat; apply shifted_close.
Qed.

Theorem C143_periodic : forall store u n bx by_ ps i j, stored store u -> (1 <= n < 2 ^ 24)%Z -> (0 <= i < n)%Z -> (0 <= j < n)%Z ->
  let ks := copies bx by_ ps in Forall (resolved n) ks ->
  Rabs (draw rounded store (flat_map (fast_part rounded n bx by_) ps) [i; j] - sum (fun t => exact_of n i j (image_at bx by_ t)) (turns bx by_ ps))
  <= total error_of ks + sum (moved_error bx by_) (turns bx by_ ps)
     + ((1 + u) ^ length ks - 1) * total (fun k => Rabs (exact_of n i j k) + error_of k) ks.
Proof.
  intros store u n bx by_ ps i j St Hn Hi Hj ks F. pose proof (C143_image store u n bx by_ ps i j St Hn Hi Hj F) as I. cbv zeta in I. fold ks in I.
  assert (M : Rabs (total (exact_of n i j) ks - sum (fun t => exact_of n i j (image_at bx by_ t)) (turns bx by_ ps)) <= sum (moved_error bx by_) (turns bx by_ ps)).
  { unfold ks in *. clear I ks. rewrite copies_turns in *. induction (turns bx by_ ps) as [|t l IH]; [cbn; rewrite Rminus_0_r, Rabs_R0; lra|].
    cbn [map] in F. inversion F as [|? ? K F']; subst. specialize (IH F'). cbn [map total]. unfold sum in *. cbn [fold_right].
    pose proof (moved n bx by_ i j t (proj1 K)) as Q.
    match goal with |- Rabs (?a + ?b - (?c + ?d)) <= _ => replace (a + b - (c + d)) with ((a - c) + (b - d)) by ring end.
    eapply Rle_trans; [apply Rabs_triang|]. apply Rplus_le_compat; assumption. }
  set (d := draw rounded store _ _) in *. set (t := total (exact_of n i j) ks) in *. set (e := sum (fun t => exact_of n i j (image_at bx by_ t)) _) in *.
  change (num rounded) with R in d. replace (d - e) with ((d - t) + (t - e)) by ring. eapply Rle_trans; [apply Rabs_triang|]. lra.
Qed.

(** * A case *)

(** A particle of mass 1 and smoothing length 1/2 in the middle of four by four pixels. *)
Theorem C143_case : let p := @mk_rpart rounded (1 / 2) (1 / 2) 0 1 (1 / 2) in
  let ks := copies 0 0 [p] in
  ks = [mk_copy 1 (1 / 2) (1 / 2) (1 / 2)] /\ Forall (resolved 4) ks /\ wide 4 (1 / 2)
  /\ total error_of ks <= VisModel.kernel2 0 (VisModel.gamma2 * (1 / 2)) * (9 * u24)
  /\ 0 < total (exact_of 4 1 1) ks.
Proof.
  cbv zeta. assert (Z0 : rnd 53 0 = 0) by apply rnd_0.
  assert (E : copies 0 0 [@mk_rpart rounded (1 / 2) (1 / 2) 0 1 (1 / 2)] = [mk_copy 1 (1 / 2) (1 / 2) (1 / 2)]).
  { assert (Sh : shifts rounded 0 = [0%Z]).
    { unfold shifts. unfold zero. cbn [rounded equal lit]. replace (Q2R 0) with 0 by (unfold Q2R; cbn; lra). rewrite Z0. destruct (Req_EM_T 0 0); [reflexivity|congruence]. }
    unfold copies. rewrite Sh. cbn [flat_map map app r_m r_h r_x r_y]. 
    assert (Sx : shifted rounded (1 / 2) 0 0 = 1 / 2).
    { unfold shifted. cbn [rounded add mul of_int]. unfold rnd2. rewrite Rmult_0_l, Z0, Rplus_0_r.
      apply rnd_id. replace (1 / 2) with (bpow radix2 (-1)) by (cbn; lra). apply generic_format_bpow. unfold FLX_exp. lia. }
    rewrite Sx. reflexivity. }
  assert (Rs : resolved 4 (mk_copy 1 (1 / 2) (1 / 2) (1 / 2))).
  { unfold resolved, VisModel.gamma2. cbn [k_h k_x k_y]. rewrite Rabs_pos_eq by lra. repeat split; lra. }
  rewrite E. repeat match goal with |- _ /\ _ => split end; [reflexivity|constructor; [exact Rs|constructor]|apply C143_wide; [lia|lra|apply Rs]| |].
  - cbn [total]. rewrite Rplus_0_r. unfold error_of, pixel_error. cbn [k_m k_h k_x k_y]. rewrite Rabs_R1, Rmult_1_l.
    apply Rmult_le_compat_l; [apply Rlt_le, centre2_pos; unfold VisModel.gamma2; lra|]. unfold off. rewrite (Rabs_pos_eq (1 / 2)) by lra. unfold VisModel.gamma2.
    pose proof u53_value. pose proof u24_value. lra.
  - cbn [total]. rewrite Rplus_0_r. unfold exact_of, exact_value, centre. cbn [k_m k_h k_x k_y]. cbv zeta. rewrite Rmult_1_l.
    assert (HH : 0 < VisModel.gamma2 * (1 / 2)) by (unfold VisModel.gamma2; lra).
    match goal with |- context [sqrt ?z] => assert (Q : 0 <= sqrt z < 2 / 5) end.
    { split; [apply sqrt_pos|]. replace (2 / 5) with (sqrt (4 / 25)) by (replace (4 / 25) with (2 / 5 * (2 / 5)) by lra; apply sqrt_square; lra). apply sqrt_lt_1_alt. lra. }
    set (r := sqrt _) in *. clearbody r. rewrite kernel2_cut by (unfold VisModel.gamma2; lra).
    apply Rmult_lt_0_compat; [apply centre2_pos, HH|].
    assert (QQ : 0 <= r / (VisModel.gamma2 * (1 / 2)) < / 2).
    { split; [apply Rmult_le_pos; [lra|apply Rlt_le, Rinv_0_lt_compat; exact HH]|]. apply Rmult_lt_reg_r with (VisModel.gamma2 * (1 / 2)); [exact HH|].
      unfold Rdiv at 1. rewrite Rmult_assoc, Rinv_l by lra. unfold VisModel.gamma2. lra. }
    set (q := r / _) in *. clearbody q. unfold cut_shape. destruct (Rlt_dec q 1); [|lra]. unfold shape.
    apply Rmult_lt_0_compat; [apply pow_lt; lra|lra].
Qed.

(** The same in a periodic box of length 1: nine copies. *)
Theorem C143_periodic_case : let p := @mk_rpart rounded (1 / 2) (1 / 2) 0 1 (1 / 2) in
  length (copies 1 1 [p]) = 9%nat /\ Forall (resolved 4) (copies 1 1 [p])
  /\ 0 < sum (fun t => exact_of 4 1 1 (image_at 1 1 t)) (turns 1 1 [p]).
Proof.
  cbv zeta. assert (Sh : shifts rounded 1 = [-1; 0; 1]%Z).
  { unfold shifts, zero, one. cbn [rounded equal lit ceil int div add]. rewrite !lit_1. replace (Q2R 0) with 0 by (unfold Q2R; cbn; lra). rewrite rnd_0.
    destruct (Req_EM_T 1 0); [lra|]. unfold rnd2. replace (1 / 1) with 1 by lra. rewrite rnd_1. rewrite (Zceil_IZR 1). replace (1 + 1) with (IZR 2) by lra.
    rewrite rnd_id by (apply (int_format 53 2); lia). rewrite Ztrunc_IZR. reflexivity. }
  assert (T : turns 1 1 [@mk_rpart rounded (1 / 2) (1 / 2) 0 1 (1 / 2)] = flat_map (fun sx => map (fun sy => (@mk_rpart rounded (1 / 2) (1 / 2) 0 1 (1 / 2), sx, sy)) [-1; 0; 1]%Z) [-1; 0; 1]%Z).
  { unfold turns. cbn [flat_map]. rewrite Sh. now rewrite app_nil_r. }
  rewrite copies_turns, T. split; [reflexivity|].
  assert (N : forall sx sy, exact_of 4 1 1 (image_at 1 1 (@mk_rpart rounded (1 / 2) (1 / 2) 0 1 (1 / 2), sx, sy)) >= 0).
  { intros sx sy. unfold exact_of, exact_value, image_at. cbn [k_m k_h k_x k_y r_m r_h]. cbv zeta.
    assert (HH : 0 < VisModel.gamma2 * (1 / 2)) by (unfold VisModel.gamma2; lra). rewrite Rmult_1_l, kernel2_cut by (try exact HH; apply sqrt_pos).
    apply Rle_ge, Rmult_le_pos; [apply Rlt_le, centre2_pos, HH|]. apply cut_bound. apply Rmult_le_pos; [apply sqrt_pos|apply Rlt_le, Rinv_0_lt_compat, HH]. }
  split.
  - rewrite Forall_forall. intros k K. apply in_map_iff in K. destruct K as ([[p sx] sy] & <- & K). apply in_flat_map in K. destruct K as (sx' & I & K).
    apply in_map_iff in K. destruct K as (sy' & E & J). injection E as <- -> ->.
    assert (B : forall s, In s [-1; 0; 1]%Z -> Rabs (4 * shifted rounded (1 / 2) s 1) <= 2 ^ 30).
    { intros s Hs. pose proof (shifted_close (1 / 2) s 1) as C. set (v := shifted rounded (1 / 2) s 1) in *. clearbody v. change (num rounded) with R in v.
      assert (Q : -1 <= IZR s <= 1) by (destruct Hs as [<-|[<-|[<-|[]]]]; lra). rewrite Rmult_1_r in C. rewrite (Rabs_pos_eq (1 / 2)) in C by lra.
      assert (Q' : Rabs (IZR s) <= 1) by (apply Rabs_le; lra). pose proof u53_value. assert (C' : Rabs (v - (1 / 2 + IZR s)) <= 1) by nra.
      apply Rabs_le_inv in C'. apply Rabs_le. lra. }
    unfold resolved, copy_at. cbn [k_h k_x k_y r_m r_h r_x r_y]. repeat match goal with |- _ /\ _ => split end; try (unfold VisModel.gamma2; lra); apply B; assumption.
  - unfold sum. cbn [flat_map map app fold_right].
    assert (P : 0 < exact_of 4 1 1 (image_at 1 1 (@mk_rpart rounded (1 / 2) (1 / 2) 0 1 (1 / 2), 0%Z, 0%Z))).
    { destruct C143_case as (E & _ & _ & _ & P). cbv zeta in E, P. rewrite E in P. cbn [total] in P. rewrite Rplus_0_r in P.
      unfold image_at. cbn [r_m r_h r_x r_y]. rewrite Rmult_0_l, Rplus_0_r. exact P. }
    pose proof (N (-1) (-1))%Z. pose proof (N (-1) 0)%Z. pose proof (N (-1) 1)%Z. pose proof (N 0 (-1))%Z. pose proof (N 0 1)%Z. pose proof (N 1 (-1))%Z. pose proof (N 1 0)%Z. pose proof (N 1 1)%Z. lra.
Qed.

Print Assumptions C143_value.
Print Assumptions C143_copy.
Print Assumptions C143_wide.
Print Assumptions C143_image.
Print Assumptions C143_periodic.
Print Assumptions C143_case.
Print Assumptions C143_periodic_case.

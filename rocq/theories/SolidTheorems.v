(** C144: the pixels of slices and the voxels of volume renderings computed with rounded numbers.

    The loops of slice_backends/sph.py and volume_render_backends/scatter.py as in RoundModel.v ([slice_at], [voxel_at]),
    with operations rounded to double precision, positions and cell numbers narrowed to single precision as in the source,
    and exponents without limits. They are compared with the exact kernel ([VisModel.kernel3]) at the exact distance. *)
From Coq Require Import List ZArith QArith Bool Reals Lia Lra Psatz Qreals.
From Flocq Require Import Core.
From Verif Require Import Base BaseLemmas RoundModel RoundFloatModel RoundFloatTheorems RoundMaskTheorems WrapSpec WrapTheorems KroundTheorems.
From Verif Require RotModel TurnTheorems AimTheorems.
From Verif Require Import RoundSumSpec RoundSumModel RoundSumProofs RoundSumTheorems PixTheorems.
From Verif Require VisModel.
Import ListNotations.
Open Scope R_scope.

Definition length3 (a b c : R) : R := sqrt (a * a + b * b + c * c).

Lemma squares_pos a b c : 0 <= a * a + b * b + c * c.
Proof. pose proof (Rle_0_sqr a) as A. pose proof (Rle_0_sqr b) as B. pose proof (Rle_0_sqr c) as C. unfold Rsqr in *. lra. Qed.
Lemma length3_triangle a b c a' b' c' : Rabs (length3 a b c - length3 a' b' c') <= Rabs (a - a') + Rabs (b - b') + Rabs (c - c').
Proof.
  assert (G : forall a b c a' b' c', length3 a b c <= length3 a' b' c' + (Rabs (a - a') + Rabs (b - b') + Rabs (c - c'))).
  { clear. intros a b c a' b' c'. pose proof (TurnTheorems.norm_triangle (a', b', c') (a - a', b - b', c - c')) as T.
    unfold RotModel.norm, RotModel.vadd, RotModel.dot in T. unfold length3.
    replace ((a' + (a - a')) * (a' + (a - a')) + (b' + (b - b')) * (b' + (b - b')) + (c' + (c - c')) * (c' + (c - c'))) with (a * a + b * b + c * c) in T by ring.
    eapply Rle_trans; [exact T|]. apply Rplus_le_compat_l. pose proof (Rabs_pos (a - a')). pose proof (Rabs_pos (b - b')). pose proof (Rabs_pos (c - c')).
    apply TurnTheorems.le_of_sq; [lra|]. rewrite sqrt_sqrt by apply squares_pos.
    rewrite <- (TurnTheorems.abs_sq (a - a')), <- (TurnTheorems.abs_sq (b - b')), <- (TurnTheorems.abs_sq (c - c')).
    assert (forall u v : R, 0 <= u -> 0 <= v -> 0 <= u * v) as M by (intros; apply Rmult_le_pos; assumption).
    pose proof (M (Rabs (a - a')) (Rabs (b - b'))). pose proof (M (Rabs (a - a')) (Rabs (c - c'))). pose proof (M (Rabs (b - b')) (Rabs (c - c'))). lra. }
  pose proof (G a b c a' b' c'). pose proof (G a' b' c' a b c) as Q. rewrite (Rabs_minus_sym a' a), (Rabs_minus_sym b' b), (Rabs_minus_sym c' c) in Q. apply Rabs_le. lra.
Qed.
Lemma length3_axis a b c : Rabs a <= length3 a b c /\ Rabs b <= length3 a b c /\ Rabs c <= length3 a b c.
Proof.
  unfold length3. rewrite <- !sqrt_Rsqr_abs. unfold Rsqr. pose proof (Rle_0_sqr a) as X. pose proof (Rle_0_sqr b) as Y. pose proof (Rle_0_sqr c) as Z. unfold Rsqr in X, Y, Z.
  split; [|split]; apply sqrt_le_1_alt; lra.
Qed.

Lemma root3_value a b c : exists t, fac 4 t /\
  root rounded (add rounded (add rounded (square_of rounded a) (square_of rounded b)) (square_of rounded c)) = length3 a b c * t.
Proof.
  unfold square_of, length3. cbn [rounded root add mul]. unfold rnd2.
  assert (A : 0 <= a * a) by nra. assert (B : 0 <= b * b) by nra. assert (C : 0 <= c * c) by nra.
  destruct (fac_rnd (a * a) A) as (s & Fs & ->). destruct (fac_rnd (b * b) B) as (t & Ft & ->). destruct (fac_rnd (c * c) C) as (v & Fv & ->).
  destruct (AimTheorems.fac_plus 1 _ _ s t A B Fs Ft) as (r & Fr & ->). pose proof (fac_pos _ _ Fr).
  destruct (fac_rnd ((a * a + b * b) * r)) as (q & Fq & ->); [apply Rmult_le_pos; lra|]. rewrite Rmult_assoc.
  destruct (AimTheorems.fac_plus 2 (a * a + b * b) (c * c) (r * q) v ltac:(lra) C (fac_mult 1 1 _ _ Fr Fq) (fac_mono 1 2 v ltac:(lia) Fv)) as (w & Fw & ->).
  pose proof (fac_pos _ _ Fw). destruct (fac_rnd ((a * a + b * b + c * c) * w)) as (k & Fk & ->); [apply Rmult_le_pos; lra|]. pose proof (fac_pos _ _ Fk).
  rewrite Rmult_assoc, sqrt_mult by (try apply Rmult_le_pos; lra).
  destruct (fac_rnd (sqrt (a * a + b * b + c * c) * sqrt (w * k))) as (p & Fp & ->); [apply Rmult_le_pos; apply sqrt_pos|].
  exists (sqrt (w * k) * p). split; [|exact (Rmult_assoc _ _ _)]. apply (fac_mult 3 1); [|exact Fp]. apply AimTheorems.fac_sqrt. exact (fac_mult 2 1 _ _ Fw Fk).
Qed.

(** * The radius and the kernel *)

Lemma width3_close h : 0 < h -> exists g, fac 2 g /\ mul rounded (gamma3 rounded) h = VisModel.gamma3 * h * g.
Proof.
  intro H. unfold gamma3. cbn [rounded mul lit]. unfold rnd2. replace (Q2R (1936492 # 1000000)) with VisModel.gamma3 by (unfold Q2R, VisModel.gamma3; cbn; lra).
  destruct (fac_rnd VisModel.gamma3) as (s & Fs & ->); [unfold VisModel.gamma3; lra|]. pose proof (fac_pos _ _ Fs).
  destruct (fac_rnd (VisModel.gamma3 * s * h)) as (t & Ft & ->); [apply Rmult_le_pos; [apply Rmult_le_pos; [unfold VisModel.gamma3|]|]; lra|].
  exists (s * t). split; [exact (fac_mult 1 1 _ _ Fs Ft)|]. change (@eq R (VisModel.gamma3 * s * h * t) (VisModel.gamma3 * h * (s * t))). ring.
Qed.
Lemma radius3_pos h : 0 < h -> 0 < VisModel.gamma3 * h. Proof. intro H. unfold VisModel.gamma3. lra. Qed.

Lemma kernel3_cut r H : 0 <= r -> 0 < H -> VisModel.kernel3 r H = VisModel.kernel3 0 H * cut_shape (r / H).
Proof. intros Hr HH. rewrite centre3, exact3, cut_exact by assumption. ring. Qed.
Lemma centre3_pos H : 0 < H -> 0 < VisModel.kernel3 0 H.
Proof. intro HH. rewrite centre3 by exact HH. apply weight3_pos, HH. Qed.
Lemma quotient_pos r H : 0 <= r -> 0 < H -> 0 <= r / H.
Proof. intros Hr HH. apply Rmult_le_pos; [exact Hr|apply Rlt_le, Rinv_0_lt_compat; exact HH]. Qed.

Lemma kernel3_close rho rho' d t g H : 0 < H -> 0 <= rho -> 0 <= rho' -> Rabs (rho' - rho) <= d -> fac 4 t -> fac 2 g ->
  Rabs (kernel3 rounded (rho' * t) (H * g) - VisModel.kernel3 rho H) <= VisModel.kernel3 0 H * (300 * u53 + 135 / 64 * (d / H)).
Proof.
  intros HH Hr Hr' D F G. pose proof u53_value as U. pose proof (fac_pos _ _ F) as T0. pose proof (fac_pos _ _ G) as g0.
  apply fac_error in F; [|lia]. apply fac_error in G; [|lia]. apply Rabs_le_inv in G, F. assert (HG : 0 < H * g) by (apply Rmult_lt_0_compat; lra).
  assert (RT : 0 <= rho' * t) by (apply Rmult_le_pos; lra). pose proof (C133_slice (rho' * t) (H * g) RT HG) as K.
  rewrite (kernel3_cut (rho' * t)) in K by assumption. rewrite (kernel3_cut rho) by assumption.
  set (k := kernel3 rounded (rho' * t) (H * g)) in *. clearbody k. change (num rounded) with R in k.
  assert (Ig : 0 < / g) by (apply Rinv_0_lt_compat; exact g0). assert (gV : g * / g = 1) by (field; lra).
  assert (Kg : VisModel.kernel3 0 (H * g) = VisModel.kernel3 0 H * (/ g * / g * / g)) by (rewrite !centre3 by assumption; field; split; lra).
  pose proof (centre3_pos H HH) as K0. rewrite Kg in K. set (w := VisModel.kernel3 0 H) in *. clearbody w. clear Kg.
  pose proof (quotient_pos rho H Hr HH) as q0. pose proof (quotient_pos rho' H Hr' HH) as q1.
  assert (Eq : rho' * t / (H * g) = rho' / H * (t * / g)) by (field; split; lra). rewrite Eq in K.
  assert (S0 : 0 < t * / g) by (apply Rmult_lt_0_compat; lra).
  pose proof (cut_scaled (rho' / H) (t * / g) q1 S0) as C1. pose proof (cut_lipschitz (rho' / H) (rho / H) q1 q0) as C2.
  assert (q2 : 0 <= rho' / H * (t * / g)) by (apply Rmult_le_pos; lra).
  pose proof (cut_bound _ q2) as B. set (c := cut_shape (rho' / H * (t * / g))) in *. set (c' := cut_shape (rho' / H)) in *. set (c0 := cut_shape (rho / H)) in *.
  clearbody c c' c0.
  assert (C2' : Rabs (c' - c0) <= 135 / 64 * (d / H)).
  { eapply Rle_trans; [exact C2|]. apply Rmult_le_compat_l; [lra|]. replace (rho' / H - rho / H) with ((rho' - rho) * / H) by (field; lra).
    assert (0 < / H) by (apply Rinv_0_lt_compat; exact HH). rewrite Rabs_mult, (Rabs_pos_eq (/ H)) by lra. apply Rmult_le_compat_r; lra. }
  assert (g1 : 1 - 26 * u53 <= / g <= 1 + 27 * u53) by (split; nra).
  assert (s1 : Rabs (t * / g - 1) <= 54 * u53) by (apply Rabs_le; split; nra).
  assert (g2 : 1 - 53 * u53 <= / g * / g <= 1 + 55 * u53) by (split; nra).
  assert (gg : Rabs (/ g * / g * / g - 1) <= 83 * u53) by (apply Rabs_le; split; nra).
  assert (C1' : Rabs (c - c') <= 135 / 64 * (54 * u53)) by (eapply Rle_trans; [exact C1|]; apply Rmult_le_compat_l; lra).
  set (j := / g * / g * / g) in *. clearbody j.
  assert (K' : Rabs (k - w * j * c) <= w * (81 * u53)).
  { eapply Rle_trans; [exact K|]. apply Rabs_le_inv in gg. replace (80 * u53 * (w * j)) with (w * (80 * u53 * j)) by ring. apply Rmult_le_compat_l; [lra|]. nra. }
  replace (k - w * c0) with ((k - w * j * c) + w * ((j - 1) * c + ((c - c') + (c' - c0)))) by ring.
  eapply Rle_trans; [apply Rabs_triang|]. rewrite Rabs_mult, (Rabs_pos_eq w) by lra.
  assert (M : Rabs ((j - 1) * c + (c - c' + (c' - c0))) <= 83 * u53 + (135 / 64 * (54 * u53) + 135 / 64 * (d / H))).
  { eapply Rle_trans; [apply Rabs_triang|]. apply Rplus_le_compat; [|eapply Rle_trans; [apply Rabs_triang|]; lra].
    rewrite Rabs_mult, (Rabs_pos_eq c) by lra. pose proof (Rabs_pos (j - 1)). nra. }
  apply Rle_trans with (w * (81 * u53) + w * (83 * u53 + (135 / 64 * (54 * u53) + 135 / 64 * (d / H)))).
  - apply Rplus_le_compat; [exact K'|]. apply Rmult_le_compat_l; lra.
  - rewrite <- Rmult_plus_distr_l. apply Rmult_le_compat_l; lra.
Qed.

(** * Single writes *)

(** What belongs to a point at a distance [r], and how far it is off if the distances along the axes are off by [d] in sum. *)
Definition exact_point (m h r : R) : R := m * VisModel.kernel3 r (VisModel.gamma3 * h).
Definition point_error (m h d : R) : R :=
  Rabs m * VisModel.kernel3 0 (VisModel.gamma3 * h) * (400 * u53 + 17 / 8 * (d / (VisModel.gamma3 * h))).
(** What a kernel can have in pixels of a width [p] that are left out at its edge. *)
Definition edge (m h p : R) : R := Rabs m * VisModel.kernel3 0 (VisModel.gamma3 * h) * (5 * (7 / 8 * p / (VisModel.gamma3 * h)) ^ 4).

Lemma point_error_pos m h d : 0 < h -> 0 <= d -> 0 <= point_error m h d.
Proof.
  intros Hh Hd. pose proof (radius3_pos h Hh) as HH. unfold point_error. pose proof (centre3_pos _ HH). pose proof (Rabs_pos m). pose proof u53_value.
  apply Rmult_le_pos; [apply Rmult_le_pos; lra|]. pose proof (quotient_pos d _ Hd HH). lra.
Qed.
Lemma point_close m h a b c a' b' c' d : 0 < h -> Rabs (a' - a) + Rabs (b' - b) + Rabs (c' - c) <= d ->
  Rabs (mul rounded m (kernel3 rounded (root rounded (add rounded (add rounded (square_of rounded a') (square_of rounded b')) (square_of rounded c'))) (mul rounded (gamma3 rounded) h))
        - exact_point m h (length3 a b c)) <= point_error m h d.
Proof.
  intros Hh D. destruct (root3_value a' b' c') as (t & Ft & ->). destruct (width3_close h Hh) as (g & Gg & ->). unfold exact_point, point_error.
  pose proof (radius3_pos h Hh) as HH. set (H := VisModel.gamma3 * h) in *. clearbody H.
  assert (Hd : 0 <= d) by (pose proof (Rabs_pos (a' - a)); pose proof (Rabs_pos (b' - b)); pose proof (Rabs_pos (c' - c)); lra).
  assert (r0 : 0 <= length3 a b c) by apply sqrt_pos. assert (r1 : 0 <= length3 a' b' c') by apply sqrt_pos.
  pose proof (kernel3_close (length3 a b c) (length3 a' b' c') d t g H HH r0 r1 (Rle_trans _ _ _ (length3_triangle a' b' c' a b c) D) Ft Gg) as K.
  cbn [rounded mul]. unfold rnd2. set (k := kernel3 rounded (length3 a' b' c' * t) (H * g)) in *. set (r := length3 a b c) in *.
  pose proof (centre3_pos H HH) as W. assert (Q : 0 <= VisModel.kernel3 r H <= VisModel.kernel3 0 H).
  { rewrite (kernel3_cut r H r0 HH). pose proof (cut_bound (r / H) (quotient_pos r H r0 HH)). nra. }
  set (e := VisModel.kernel3 r H) in *. set (w := VisModel.kernel3 0 H) in *.
  pose proof (quotient_pos d H Hd HH) as Pd.
  set (q := d / H) in *. clearbody q e w r. clearbody k. change (num rounded) with R in k.
  pose proof u53_value as U. pose proof (rnd_error_abs (m * k)) as E. pose proof (Rabs_pos m) as Pm.
  assert (B : Rabs k <= w * (2 + 3 * q)).
  { replace k with ((k - e) + e) by ring. eapply Rle_trans; [apply Rabs_triang|]. rewrite (Rabs_pos_eq e) by lra. nra. }
  replace (rnd 53 (m * k) - m * e) with ((rnd 53 (m * k) - m * k) + m * (k - e)) by ring.
  eapply Rle_trans; [apply Rabs_triang|]. rewrite Rabs_mult in E. rewrite Rabs_mult.
  assert (X1 : Rabs m * Rabs k * u53 <= Rabs m * (w * (2 + 3 * q)) * u53).
  { apply Rmult_le_compat_r; [lra|]. apply Rmult_le_compat_l; assumption. }
  assert (X2 : Rabs m * Rabs (k - e) <= Rabs m * (w * (300 * u53 + 135 / 64 * q))) by (apply Rmult_le_compat_l; assumption).
  apply Rle_trans with (Rabs m * w * ((2 + 3 * q) * u53 + (300 * u53 + 135 / 64 * q))); [nra|].
  apply Rmult_le_compat_l; [apply Rmult_le_pos; lra|]. nra.
Qed.

(** * Which pixels are written *)

Lemma span3_bounds n h : (1 <= n < 2 ^ 24)%Z -> 0 < h -> IZR n * (VisModel.gamma3 * h) <= 2 ^ 30 ->
  IZR n * (VisModel.gamma3 * h) - / 4 < IZR (span rounded (single rounded (of_int rounded n)) (mul rounded (gamma3 rounded) h)).
Proof.
  intros Hn Hh B. destruct (width3_close h Hh) as (g & G & ->). unfold span, one. cbn [rounded int32 single of_int add mul lit]. unfold rnd2.
  rewrite lit_1, single_int by lia. assert (N : 0 < IZR n) by (apply IZR_lt; lia). pose proof (radius3_pos h Hh) as HH.
  set (H := VisModel.gamma3 * h) in *. clearbody H. pose proof (fac_pos _ _ G) as g0. pose proof u53_value as U.
  set (p := IZR n * H) in *. assert (p0 : 0 < p) by (apply Rmult_lt_0_compat; lra).
  replace (H * g * IZR n) with (p * g) by (unfold p; ring). clearbody p.
  assert (pg : 0 <= p * g) by (apply Rmult_le_pos; lra).
  destruct (fac_rnd (p * g) pg) as (a & A & ->). pose proof (fac_pos _ _ A).
  assert (pga : 0 <= p * g * a) by (apply Rmult_le_pos; lra).
  destruct (fac_rnd (1 + p * g * a)) as (b & Bf & ->); [lra|]. pose proof (fac_pos _ _ Bf).
  rewrite Ztrunc_floor by (apply Rmult_le_pos; lra).
  pose proof (Zfloor_ub ((1 + p * g * a) * b)) as F. set (s := IZR (Zfloor ((1 + p * g * a) * b))) in *. clearbody s.
  pose proof (fac_mult _ _ _ _ (fac_mult _ _ _ _ G A) Bf) as GAB. apply fac_error in GAB; [|lia]. apply fac_error in Bf; [|lia].
  apply Rabs_le_inv in GAB, Bf.
  replace ((1 + p * g * a) * b) with (b + p * (g * a * b)) in F by ring.
  assert (p * (1 - 26 * u53) <= p * (g * a * b)) by (apply Rmult_le_compat_l; lra).
  assert (Y : p * u53 <= 2 ^ 30 * u53) by (apply Rmult_le_compat_r; lra). lra.
Qed.

(** A pixel that is not reached is nearly a radius away. *)
Lemma not_reached3 n h x i : (1 <= n < 2 ^ 24)%Z -> 0 < h -> IZR n * (VisModel.gamma3 * h) <= 2 ^ 30 -> Rabs (IZR n * x) <= 2 ^ 30 ->
  let c := cell_of rounded (double rounded (of_int rounded n)) x in
  let s := span rounded (single rounded (of_int rounded n)) (mul rounded (gamma3 rounded) h) in
  ~ (c - s <= i < c + s)%Z -> VisModel.gamma3 * h - 7 / 8 * / IZR n <= Rabs (centre n i - x).
Proof.
  intros Hn Hh B Bx. cbv zeta. pose proof (cell_bounds n x Bx) as C. pose proof (span3_bounds n h Hn Hh B) as S'.
  set (c := cell_of rounded _ x) in *. set (s := span rounded _ _) in *. clearbody c s. intro O.
  assert (N : 0 < IZR n) by (apply IZR_lt; lia). pose proof (radius3_pos h Hh) as HH.
  set (H := VisModel.gamma3 * h) in *. clearbody H. assert (NH : 0 < IZR n * H) by (apply Rmult_lt_0_compat; assumption).
  assert (E : IZR n * (centre n i - x) = IZR i + / 2 - IZR n * x) by (unfold centre; field; lra).
  assert (K : IZR n * H - 7 / 8 <= Rabs (IZR n * (centre n i - x))).
  { rewrite E. assert (O' : (i <= c - s - 1)%Z \/ (c + s <= i)%Z) by lia. destruct O' as [O'|O']; apply IZR_le in O'.
    - rewrite !minus_IZR in O'. rewrite Rabs_left1; lra.
    - rewrite !plus_IZR in O'. eapply Rle_trans; [|apply Rle_abs]. lra. }
  rewrite Rabs_mult, (Rabs_pos_eq (IZR n)) in K by lra. apply Rmult_le_reg_l with (IZR n); [exact N|].
  replace (IZR n * (H - 7 / 8 * / IZR n)) with (IZR n * H - 7 / 8) by (field; lra). exact K.
Qed.

Lemma cut_edge q e : 0 <= q -> 0 <= e -> 1 - e <= q -> cut_shape q <= 5 * e ^ 4.
Proof.
  intros Hq He H. pose proof (pow_le e 4 He) as P. unfold cut_shape. destruct (Rlt_dec q 1) as [L|L]; [|lra]. unfold shape.
  assert (Q : (1 - q) ^ 4 <= e ^ 4) by (apply pow_incr; lra). pose proof (pow_le (1 - q) 4 ltac:(lra)) as Q0.
  apply Rle_trans with ((1 - q) ^ 4 * 5); [apply Rmult_le_compat_l; lra|]. lra.
Qed.
Lemma lost m h r p : 0 < h -> 0 <= r -> 0 <= p -> VisModel.gamma3 * h - 7 / 8 * p <= r -> Rabs (exact_point m h r) <= edge m h p.
Proof.
  intros Hh Hr Hp L. pose proof (radius3_pos h Hh) as HH. unfold exact_point, edge. set (H := VisModel.gamma3 * h) in *. clearbody H.
  rewrite kernel3_cut by assumption. pose proof (centre3_pos H HH) as W. pose proof (quotient_pos r H Hr HH) as q0. pose proof (cut_bound _ q0) as B.
  rewrite Rabs_mult, (Rabs_pos_eq (_ * _)) by (apply Rmult_le_pos; lra). rewrite Rmult_assoc. apply Rmult_le_compat_l; [apply Rabs_pos|]. apply Rmult_le_compat_l; [lra|].
  assert (I : 0 < / H) by (apply Rinv_0_lt_compat; exact HH). apply cut_edge; [exact q0|apply quotient_pos; lra|].
  replace (1 - 7 / 8 * p / H) with ((H - 7 / 8 * p) * / H) by (field; lra). apply Rmult_le_compat_r; lra.
Qed.

(** * Sums over the loops *)

Lemma summed_none g c (ws : list (list Z * R)) : (forall w, In w ws -> fst w <> c) -> summed g c ws = 0.
Proof.
  induction ws as [|[d v] ws IH]; intro N; [reflexivity|]. cbn [summed]. destruct (list_eq_dec Z.eq_dec d c) as [E|_].
  - exfalso. exact (N (d, v) (or_introl eq_refl) E).
  - rewrite IH; [lra|]. intros w W. apply N. now right.
Qed.
Lemma summed_last g (i j k i' j' : Z) (f : Z -> R) zs : NoDup zs ->
  summed g [i; j; k] (map (fun l => ([i'; j'; l], f l)) zs) = if list_eq_dec Z.eq_dec [i'; j'] [i; j] then if in_dec Z.eq_dec k zs then g (f k) else 0 else 0.
Proof.
  intro D. induction D as [|l zs N D IH]; [cbn [map summed]; now destruct (list_eq_dec Z.eq_dec [i'; j'] [i; j])|]. cbn [map summed]. rewrite IH. clear IH.
  destruct (list_eq_dec Z.eq_dec [i'; j'; l] [i; j; k]) as [E|E].
  - injection E as -> -> ->. destruct (list_eq_dec Z.eq_dec [i; j] [i; j]); [|congruence]. destruct (in_dec Z.eq_dec k zs); [contradiction|].
    destruct (in_dec Z.eq_dec k (k :: zs)) as [|X]; [lra|]. exfalso. apply X. now left.
  - destruct (list_eq_dec Z.eq_dec [i'; j'] [i; j]) as [Q|]; [|lra]. injection Q as -> ->. destruct (in_dec Z.eq_dec k zs) as [I|I]; destruct (in_dec Z.eq_dec k (l :: zs)) as [I'|I']; try lra.
    + exfalso. apply I'. now right.
    + destruct I' as [->|]; [now destruct E|contradiction].
Qed.
Lemma summed_middle g (i j k i' : Z) (f : Z -> Z -> R) ys zs : NoDup ys -> NoDup zs ->
  summed g [i; j; k] (flat_map (fun j' => map (fun l => ([i'; j'; l], f j' l)) zs) ys)
  = if Z.eq_dec i' i then if in_dec Z.eq_dec j ys then if in_dec Z.eq_dec k zs then g (f j k) else 0 else 0 else 0.
Proof.
  intros D D'. induction D as [|l ys N D IH]; [cbn; now destruct (Z.eq_dec i' i)|]. cbn [flat_map]. rewrite summed_app, IH, (summed_last g i j k i' l (f l) zs D'). clear IH.
  destruct (list_eq_dec Z.eq_dec [i'; l] [i; j]) as [E|E].
  - injection E as -> ->. destruct (Z.eq_dec i i); [|congruence]. destruct (in_dec Z.eq_dec j ys); [contradiction|].
    destruct (in_dec Z.eq_dec j (j :: ys)) as [|X]; [destruct (in_dec Z.eq_dec k zs); lra|]. exfalso. apply X. now left.
  - destruct (Z.eq_dec i' i) as [->|]; [|lra]. destruct (in_dec Z.eq_dec j ys) as [I|I]; destruct (in_dec Z.eq_dec j (l :: ys)) as [I'|I']; try (destruct (in_dec Z.eq_dec k zs); lra); try lra.
    + exfalso. apply I'. now right.
    + destruct I' as [->|]; [now destruct E|contradiction].
Qed.
Lemma summed_over3 g (i j k : Z) (f : Z -> Z -> Z -> R) xs ys zs : NoDup xs -> NoDup ys -> NoDup zs ->
  summed g [i; j; k] (over3 rounded xs ys zs f)
  = if in_dec Z.eq_dec i xs then if in_dec Z.eq_dec j ys then if in_dec Z.eq_dec k zs then g (f i j k) else 0 else 0 else 0.
Proof.
  intros D D' D''. unfold over3. induction D as [|l xs N D IH]; [reflexivity|]. cbn [flat_map]. rewrite summed_app, IH. clear IH.
  etransitivity; [apply (f_equal (fun z => z + _)); exact (summed_middle g i j k l (f l) ys zs D' D'')|]. destruct (Z.eq_dec l i) as [->|K].
  - destruct (in_dec Z.eq_dec i xs); [contradiction|]. destruct (in_dec Z.eq_dec i (i :: xs)) as [|X]; [apply Rplus_0_r|]. exfalso. apply X. now left.
  - destruct (in_dec Z.eq_dec i xs) as [I|I]; destruct (in_dec Z.eq_dec i (l :: xs)) as [I'|I']; try apply Rplus_0_l.
    + exfalso. apply I'. now right.
    + destruct I' as [|]; contradiction.
Qed.

(** What is written to [c] is at most one number, which is [e] up to [b]. *)
Definition near (c : list Z) (ws : list (list Z * R)) (e b : R) : Prop :=
  Rabs (summed (fun v => v) c ws - e) <= b /\ summed Rabs c ws <= Rabs e + b /\ (times c ws <= 1)%nat.
Lemma near_value c ws e b v : (forall g, summed g c ws = g v) -> Rabs (v - e) <= b -> near c ws e b.
Proof.
  intros S B. unfold near. rewrite (S (fun v => v)), (S Rabs). split; [exact B|]. split.
  - replace v with ((v - e) + e) by ring. pose proof (Rabs_triang (v - e) e). lra.
  - apply INR_le. rewrite times_summed, (S (fun _ => 1)). cbn. lra.
Qed.
Lemma near_none c ws e b : (forall g, summed g c ws = 0) -> Rabs e <= b -> near c ws e b.
Proof.
  intros S B. unfold near. rewrite (S (fun v => v)), (S Rabs). pose proof (Rabs_pos e). rewrite Rminus_0_l, Rabs_Ropp. split; [exact B|]. split; [lra|].
  apply INR_le. rewrite times_summed, (S (fun _ => 1)). cbn. lra.
Qed.
Lemma near_moved c ws e b e' b' : near c ws e b -> Rabs (e - e') <= b' -> near c ws e' (b + b').
Proof.
  intros (N1 & N2 & N3) M. split; [|split; [|exact N3]].
  - replace (summed (fun v => v) c ws - e') with ((summed (fun v => v) c ws - e) + (e - e')) by ring. pose proof (Rabs_triang (summed (fun v => v) c ws - e) (e - e')). lra.
  - pose proof (Rabs_triang (e - e') e'). replace (e - e' + e') with e in * by ring. lra.
Qed.

(** * Slices *)

Definition slice_exact (n : Z) (zs m h x y z : R) (i j : Z) : R := exact_point m h (length3 (centre n i - x) (centre n j - y) (z - zs)).
Definition slice_bound (n : Z) (zs m h x y z : R) : R := point_error m h (off x + off y + u53 * Rabs (z - zs)) + edge m h (/ IZR n).
Definition fits (n : Z) (h x : R) : Prop := IZR n * (VisModel.gamma3 * h) <= 2 ^ 30 /\ Rabs (IZR n * x) <= 2 ^ 30.

Lemma edge_pos m h p : 0 < h -> 0 <= p -> 0 <= edge m h p.
Proof.
  intros Hh Hp. pose proof (radius3_pos h Hh) as HH. unfold edge. apply Rmult_le_pos; [apply Rmult_le_pos; [apply Rabs_pos|apply Rlt_le, centre3_pos, HH]|].
  apply Rmult_le_pos; [lra|]. apply pow_le, quotient_pos; [lra|exact HH].
Qed.
(** Particles that are left out because of their height have next to nothing in the slice. *)
Lemma too_far m h a b z zs : 0 < h ->
  less rounded (mul rounded (mul rounded (gamma3 rounded) h) (mul rounded (gamma3 rounded) h)) (square_of rounded (sub rounded z zs)) = true ->
  Rabs (exact_point m h (length3 a b (z - zs))) <= Rabs m * VisModel.kernel3 0 (VisModel.gamma3 * h) * u53.
Proof.
  intros Hh L. destruct (width3_close h Hh) as (g & G & E). rewrite E in L. pose proof (fac_pos _ _ G) as g0. apply fac_error in G; [|lia]. apply Rabs_le_inv in G.
  pose proof (radius3_pos h Hh) as HH. unfold exact_point. clear E. set (H := VisModel.gamma3 * h) in *. clearbody H. unfold square_of in L. cbn [rounded mul sub] in L. unfold rnd2 in L. apply lessb_R in L.
  pose proof (rnd_error_abs (z - zs)) as D. set (c := rnd 53 (z - zs)) in *. set (d := z - zs) in *. clearbody c d. pose proof u53_value as U.
  assert (Q : H * g < Rabs c).
  { apply Rnot_le_lt. intro N. assert (c * c <= H * g * (H * g)).
    { rewrite <- (TurnTheorems.abs_sq c). apply Rmult_le_compat; try apply Rabs_pos; exact N. } apply rnd_le in H0. lra. }
  assert (C : Rabs c <= Rabs d * (1 + u53)) by (replace c with ((c - d) + d) by ring; pose proof (Rabs_triang (c - d) d); lra).
  assert (F : H * (1 - 28 * u53) <= Rabs d).
  { assert (H * (1 - 26 * u53) <= H * g) by (apply Rmult_le_compat_l; lra).
    apply Rmult_le_reg_r with (1 + u53); [lra|]. apply Rle_trans with (H * (1 - 26 * u53)); [|lra]. rewrite Rmult_assoc. apply Rmult_le_compat_l; [lra|]. nra. }
  destruct (length3_axis a b d) as (_ & _ & A). set (r := length3 a b d) in *. assert (r0 : 0 <= r) by apply sqrt_pos. clearbody r.
  rewrite kernel3_cut by assumption. pose proof (quotient_pos r H r0 HH) as q0. pose proof (cut_bound _ q0) as B. pose proof (centre3_pos H HH) as W.
  rewrite Rabs_mult, (Rabs_pos_eq (_ * _)) by (apply Rmult_le_pos; lra). rewrite Rmult_assoc. apply Rmult_le_compat_l; [apply Rabs_pos|]. apply Rmult_le_compat_l; [lra|].
  assert (I : 0 < / H) by (apply Rinv_0_lt_compat; exact HH).
  apply Rle_trans with (5 * (28 * u53) ^ 4).
  - apply cut_edge; [exact q0|lra|]. apply Rmult_le_reg_r with H; [exact HH|]. unfold Rdiv. rewrite Rmult_assoc, Rinv_l by lra. lra.
  - replace (5 * (28 * u53) ^ 4) with (5 * 28 ^ 4 * (u53 * u53 * u53) * u53) by ring.
    assert (u53 * u53 <= u53) by nra. assert (u53 * u53 * u53 <= u53) by nra. assert (5 * 28 ^ 4 * (u53 * u53 * u53) <= 1) by lra. nra.
Qed.

Lemma slice_near n zs m h x y z i j : (1 <= n < 2 ^ 24)%Z -> (0 <= i < n)%Z -> (0 <= j < n)%Z -> 0 < h -> fits n h x -> fits n h y ->
  near [i; j] (slice_at rounded n zs m h x y z) (slice_exact n zs m h x y z i j) (slice_bound n zs m h x y z).
Proof.
  intros Hn Hi Hj Hh [B Bx] [_ By].
  pose proof (not_reached3 n h x i Hn Hh B Bx) as Nx. pose proof (not_reached3 n h y j Hn Hh B By) as Ny. cbv zeta in Nx, Ny.
  pose proof (distance_close n i x Hn Hi) as Dx. pose proof (distance_close n j y Hn Hj) as Dy.
  assert (Dz : Rabs (sub rounded z zs - (z - zs)) <= u53 * Rabs (z - zs)) by (cbn [rounded sub]; unfold rnd2; rewrite Rmult_comm; apply rnd_error_abs).
  unfold slice_at, slice_exact, slice_bound. cbv zeta. set (s := span rounded _ _) in *. set (cx := cell_of rounded _ x) in *. set (cy := cell_of rounded _ y) in *.
  set (d := off x + off y + u53 * Rabs (z - zs)). assert (Hd : 0 <= d).
  { unfold d. pose proof (off_pos x). pose proof (off_pos y). pose proof u53_value. pose proof (Rabs_pos (z - zs)). assert (0 <= u53 * Rabs (z - zs)) by (apply Rmult_le_pos; lra). lra. }
  assert (N : 0 < / IZR n) by (apply Rinv_0_lt_compat, IZR_lt; lia).
  pose proof (point_error_pos m h d Hh Hd) as Pe. pose proof (edge_pos m h (/ IZR n) Hh ltac:(lra)) as Pd.
  assert (Z0 : ~ (cx - s <= i < cx + s /\ cy - s <= j < cy + s)%Z ->
     Rabs (exact_point m h (length3 (centre n i - x) (centre n j - y) (z - zs))) <= point_error m h d + edge m h (/ IZR n)).
  { intro O. eapply Rle_trans; [apply (lost m h _ (/ IZR n) Hh); [apply sqrt_pos|lra|]|lra].
    destruct (length3_axis (centre n i - x) (centre n j - y) (z - zs)) as (X & Y & _).
    assert (O' : ~ (cx - s <= i < cx + s)%Z \/ ~ (cy - s <= j < cy + s)%Z) by lia. destruct O' as [O'|O']; [specialize (Nx O')|specialize (Ny O')]; lra. }
  destruct (less rounded _ (square_of rounded (sub rounded z zs))) eqn:Far; cbn [orb].
  - apply near_none; [reflexivity|]. eapply Rle_trans; [apply too_far; [exact Hh|exact Far]|]. apply Rle_trans with (point_error m h d); [|lra]. unfold point_error.
    pose proof (radius3_pos h Hh) as HH. apply Rmult_le_compat_l; [apply Rmult_le_pos; [apply Rabs_pos|apply Rlt_le, centre3_pos, HH]|].
    pose proof (quotient_pos d _ Hd HH). pose proof u53_value. lra.
  - destruct (outside n cx s || outside n cy s) eqn:Out.
    + apply near_none; [reflexivity|]. apply Z0. unfold outside in Out. rewrite !orb_true_iff, !Z.ltb_lt in Out. lia.
    + destruct (in_dec Z.eq_dec i (span_range n (cx - s) (cx + s))) as [I|I]; [destruct (in_dec Z.eq_dec j (span_range n (cy - s) (cy + s))) as [J|J]|].
      * eapply near_value.
        -- intro g. rewrite summed_over by (unfold span_range; apply NoDup_zrange).
           destruct (in_dec Z.eq_dec i _); [|contradiction]. destruct (in_dec Z.eq_dec j _); [reflexivity|contradiction].
        -- eapply Rle_trans; [apply (point_close m h (centre n i - x) (centre n j - y) (z - zs) _ _ _ d Hh)|lra]. unfold d. apply Rplus_le_compat; [apply Rplus_le_compat; assumption|exact Dz].
      * apply near_none; [|apply Z0; unfold span_range in J; rewrite In_zrange in J; lia]. intro g. rewrite summed_over by (unfold span_range; apply NoDup_zrange).
        destruct (in_dec Z.eq_dec i _); [|contradiction]. destruct (in_dec Z.eq_dec j _); [contradiction|reflexivity].
      * apply near_none; [|apply Z0; unfold span_range in I; rewrite In_zrange in I; lia]. intro g. rewrite summed_over by (unfold span_range; apply NoDup_zrange).
        destruct (in_dec Z.eq_dec i _); [contradiction|reflexivity].
Qed.

(** Every pixel of a slice, written or not. *)
Theorem C144_slice : forall n zs m h x y z i j, (1 <= n < 2 ^ 24)%Z -> (0 <= i < n)%Z -> (0 <= j < n)%Z -> 0 < h -> fits n h x -> fits n h y ->
  Rabs (summed (fun v => v) [i; j] (slice_at rounded n zs m h x y z) - slice_exact n zs m h x y z i j) <= slice_bound n zs m h x y z.
Proof. intros n zs m h x y z i j Hn Hi Hj Hh X Y. exact (proj1 (slice_near n zs m h x y z i j Hn Hi Hj Hh X Y)). Qed.

(** * Volumes *)

Definition voxel_exact (nz n : Z) (m h x y z : R) (i j k : Z) : R := exact_point m h (length3 (centre n i - x) (centre n j - y) (centre nz k - z)).
Definition voxel_bound (nz n : Z) (m h x y z : R) : R := point_error m h (off x + off y + off z) + (edge m h (/ IZR n) + edge m h (/ IZR nz)).
(** Kernels with a radius of at least five eighths of a voxel are not put into one voxel. *)
Definition open3 (n : Z) (h : R) : Prop := 5 / 8 <= IZR n * (VisModel.gamma3 * h).
Lemma not_narrow n h : (1 <= n < 2 ^ 24)%Z -> 0 < h -> open3 n h ->
  less rounded (mul rounded (gamma3 rounded) h) (mul rounded (div rounded (one rounded) (single rounded (of_int rounded n))) (half rounded)) = false.
Proof.
  intros Hn Hh O. unfold open3 in O. destruct (width3_close h Hh) as (g & G & ->). rewrite half_rounded. unfold one. cbn [rounded mul div single of_int lit less]. unfold rnd2. rewrite lit_1, single_int by lia.
  pose proof (radius3_pos h Hh) as HH. set (H := VisModel.gamma3 * h) in *. clearbody H. assert (N : 0 < IZR n) by (apply IZR_lt; lia). assert (I : 0 < / IZR n) by (apply Rinv_0_lt_compat; exact N).
  destruct (fac_rnd (1 / IZR n)) as (a & Fa & ->); [unfold Rdiv; lra|]. pose proof (fac_pos _ _ Fa).
  destruct (fac_rnd (1 / IZR n * a * / 2)) as (b & Fb & ->); [unfold Rdiv; apply Rmult_le_pos; [apply Rmult_le_pos|]; lra|]. pose proof (fac_pos _ _ Fb).
  pose proof (fac_mult _ _ _ _ Fa Fb) as F. apply fac_error in F; [|lia]. apply fac_error in G; [|lia]. apply Rabs_le_inv in F, G. pose proof u53_value as U.
  destruct (Rlt_dec _ _) as [L|]; [|reflexivity]. exfalso. apply Rmult_lt_compat_r with (r := IZR n) in L; [|exact N].
  replace (1 / IZR n * a * / 2 * b * IZR n) with (/ 2 * (a * b)) in L by (field; lra).
  replace (H * g * IZR n) with (IZR n * H * g) in L by ring. assert (5 / 8 * (1 - 26 * u53) <= IZR n * H * g) by (apply Rmult_le_compat; lra). lra.
Qed.

Lemma voxel_near nz n m h x y z i j k : (1 <= n < 2 ^ 24)%Z -> (1 <= nz < 2 ^ 24)%Z -> (0 <= i < n)%Z -> (0 <= j < n)%Z -> (0 <= k < nz)%Z -> 0 < h ->
  fits n h x -> fits n h y -> fits nz h z -> open3 n h -> open3 nz h ->
  near [i; j; k] (voxel_at rounded nz n m h x y z) (voxel_exact nz n m h x y z i j k) (voxel_bound nz n m h x y z).
Proof.
  intros Hn Hnz Hi Hj Hk Hh [B Bx] [_ By] [B' Bz] O O'.
  pose proof (not_reached3 n h x i Hn Hh B Bx) as Nx. pose proof (not_reached3 n h y j Hn Hh B By) as Ny. pose proof (not_reached3 nz h z k Hnz Hh B' Bz) as Nz. cbv zeta in Nx, Ny, Nz.
  pose proof (distance_close n i x Hn Hi) as Dx. pose proof (distance_close n j y Hn Hj) as Dy. pose proof (distance_close nz k z Hnz Hk) as Dz.
  pose proof (not_narrow n h Hn Hh O) as W. pose proof (not_narrow nz h Hnz Hh O') as W'.
  unfold voxel_at, voxel_exact, voxel_bound. cbv zeta. rewrite W, W'. cbn [orb].
  set (s := span rounded (single rounded (of_int rounded n)) _) in *. set (sz := span rounded (single rounded (of_int rounded nz)) _) in *.
  set (cx := cell_of rounded _ x) in *. set (cy := cell_of rounded _ y) in *. set (cz := cell_of rounded _ z) in *.
  set (d := off x + off y + off z). assert (Hd : 0 <= d) by (unfold d; pose proof (off_pos x); pose proof (off_pos y); pose proof (off_pos z); lra).
  assert (N : 0 < / IZR n) by (apply Rinv_0_lt_compat, IZR_lt; lia). assert (N' : 0 < / IZR nz) by (apply Rinv_0_lt_compat, IZR_lt; lia).
  pose proof (point_error_pos m h d Hh Hd) as Pe. pose proof (edge_pos m h (/ IZR n) Hh ltac:(lra)) as Pd. pose proof (edge_pos m h (/ IZR nz) Hh ltac:(lra)) as Pd'.
  assert (Z0 : ~ (cx - s <= i < cx + s /\ cy - s <= j < cy + s /\ cz - sz <= k < cz + sz)%Z ->
     Rabs (exact_point m h (length3 (centre n i - x) (centre n j - y) (centre nz k - z))) <= point_error m h d + (edge m h (/ IZR n) + edge m h (/ IZR nz))).
  { intro Q. destruct (length3_axis (centre n i - x) (centre n j - y) (centre nz k - z)) as (X & Y & Z).
    assert (Q' : (~ (cx - s <= i < cx + s) \/ ~ (cy - s <= j < cy + s) \/ ~ (cz - sz <= k < cz + sz))%Z) by lia. destruct Q' as [Q'|[Q'|Q']].
    - specialize (Nx Q'). eapply Rle_trans; [apply (lost m h _ (/ IZR n) Hh); [apply sqrt_pos|lra|lra]|lra].
    - specialize (Ny Q'). eapply Rle_trans; [apply (lost m h _ (/ IZR n) Hh); [apply sqrt_pos|lra|lra]|lra].
    - specialize (Nz Q'). eapply Rle_trans; [apply (lost m h _ (/ IZR nz) Hh); [apply sqrt_pos|lra|lra]|lra]. }
  destruct (outside n cx s || outside n cy s || outside nz cz sz) eqn:Out.
  - apply near_none; [reflexivity|]. apply Z0. unfold outside in Out. rewrite !orb_true_iff, !Z.ltb_lt in Out. lia.
  - assert (S0 : forall g, summed g [i; j; k] (over3 rounded (span_range n (cx - s) (cx + s)) (span_range n (cy - s) (cy + s)) (span_range nz (cz - sz) (cz + sz))
        (fun i j k => mul rounded m (kernel3 rounded (root rounded (add rounded (add rounded
           (square_of rounded (distance rounded (single rounded) (div rounded (one rounded) (single rounded (of_int rounded n))) i x))
           (square_of rounded (distance rounded (single rounded) (div rounded (one rounded) (single rounded (of_int rounded n))) j y)))
           (square_of rounded (distance rounded (single rounded) (div rounded (one rounded) (single rounded (of_int rounded nz))) k z)))) (mul rounded (gamma3 rounded) h))))
      = _) by (intro g; apply summed_over3; unfold span_range; apply NoDup_zrange).
    destruct (in_dec Z.eq_dec i (span_range n (cx - s) (cx + s))) as [I|I]; [destruct (in_dec Z.eq_dec j (span_range n (cy - s) (cy + s))) as [J|J];
      [destruct (in_dec Z.eq_dec k (span_range nz (cz - sz) (cz + sz))) as [K|K]|]|].
    + eapply near_value; [intro g; exact (S0 g)|].
      eapply Rle_trans; [apply (point_close m h (centre n i - x) (centre n j - y) (centre nz k - z) _ _ _ d Hh)|lra]. unfold d. apply Rplus_le_compat; [apply Rplus_le_compat; assumption|exact Dz].
    + apply near_none; [exact S0|]. apply Z0. unfold span_range in K. rewrite In_zrange in K. lia.
    + apply near_none; [exact S0|]. apply Z0. unfold span_range in J. rewrite In_zrange in J. lia.
    + apply near_none; [exact S0|]. apply Z0. unfold span_range in I. rewrite In_zrange in I. lia.
Qed.
Theorem C144_voxel : forall nz n m h x y z i j k, (1 <= n < 2 ^ 24)%Z -> (1 <= nz < 2 ^ 24)%Z -> (0 <= i < n)%Z -> (0 <= j < n)%Z -> (0 <= k < nz)%Z -> 0 < h ->
  fits n h x -> fits n h y -> fits nz h z -> open3 n h -> open3 nz h ->
  Rabs (summed (fun v => v) [i; j; k] (voxel_at rounded nz n m h x y z) - voxel_exact nz n m h x y z i j k) <= voxel_bound nz n m h x y z.
Proof. intros. now apply voxel_near. Qed.

(** * Images *)

Lemma image_close {K : Type} store u c (W : K -> list (list Z * R)) (ex er : K -> R) ks : stored store u ->
  Forall (fun k => near c (W k) (ex k) (er k)) ks ->
  Rabs (draw rounded store (flat_map W ks) c - sum ex ks) <= sum er ks + ((1 + u) ^ length ks - 1) * sum (fun k => Rabs (ex k) + er k) ks.
Proof.
  intros St F.
  assert (T : Rabs (summed (fun v => v) c (flat_map W ks) - sum ex ks) <= sum er ks
    /\ summed Rabs c (flat_map W ks) <= sum (fun k => Rabs (ex k) + er k) ks /\ summed (fun _ => 1) c (flat_map W ks) <= INR (length ks)).
  { induction F as [|k ks (N1 & N2 & N3) F (IH1 & IH2 & IH3)]; [cbn; rewrite Rminus_0_r, Rabs_R0; repeat split; lra|].
    cbn [flat_map length]. unfold sum in *. cbn [fold_right]. rewrite !summed_app, S_INR. repeat match goal with |- _ /\ _ => split end.
    - match goal with |- Rabs (?a + ?b - (?c + ?d)) <= _ => replace (a + b - (c + d)) with ((a - c) + (b - d)) by ring end.
      eapply Rle_trans; [apply Rabs_triang|]. apply Rplus_le_compat; assumption.
    - apply Rplus_le_compat; assumption.
    - apply le_INR in N3. rewrite times_summed in N3. cbn [INR] in N3. lra. }
  destruct T as (S1 & S2 & S3). pose proof (C115_pixel store u (flat_map W ks) c St) as P. unfold within_roundings in P.
  assert (U0 : 0 <= u) by (pose proof (eps_pos 24); pose proof (eps_pos 53); destruct St; nra).
  rewrite <- times_summed in S3. apply INR_le in S3.
  assert (PW : (1 + u) ^ times c (flat_map W ks) - 1 <= (1 + u) ^ length ks - 1) by (apply Rplus_le_compat_r, Rle_pow; [lra|exact S3]).
  assert (P0 : 0 <= (1 + u) ^ times c (flat_map W ks) - 1) by (pose proof (pow_R1_Rle (1 + u) (times c (flat_map W ks)) ltac:(lra)); lra).
  assert (A0 : 0 <= summed Rabs c (flat_map W ks)).
  { clear. induction (flat_map W ks) as [|[d v] l IH]; cbn [summed]; [lra|]. pose proof (Rabs_pos v). destruct (list_eq_dec Z.eq_dec d c); lra. }
  pose proof (Rmult_le_compat _ _ _ _ P0 A0 PW S2) as M.
  set (d := draw rounded store _ _) in *. set (s := summed (fun v => v) _ _) in *. clearbody d. change (num rounded) with R in d.
  replace (d - sum ex ks) with ((s - sum ex ks) + (d - s)) by ring. eapply Rle_trans; [apply Rabs_triang|].
  apply Rplus_le_compat; [exact S1|]. eapply Rle_trans; [exact P|exact M].
Qed.

(** The turns of the loops, the computed position of a copy along an axis, and its exact one. *)
Record turn3 := mk_turn3 { t_p : rpart rounded; t_x : Z; t_y : Z; t_z : Z }.
Definition turns3 (sh : R -> list Z) (bx by_ bz : R) (ps : list (rpart rounded)) : list turn3 :=
  flat_map (fun p => flat_map (fun sx => flat_map (fun sy => map (fun sz => mk_turn3 p sx sy sz) (sh bz)) (sh by_)) (sh bx)) ps.
Definition placed {A} (bx by_ bz : R) (f : R -> R -> R -> A) (t : turn3) : A :=
  f (shifted rounded (r_x (t_p t)) (t_x t) bx) (shifted rounded (r_y (t_p t)) (t_y t) by_) (shifted rounded (r_z (t_p t)) (t_z t) bz).
Definition exactly_placed {A} (bx by_ bz : R) (f : R -> R -> R -> A) (t : turn3) : A :=
  f (r_x (t_p t) + IZR (t_x t) * bx) (r_y (t_p t) + IZR (t_y t) * by_) (r_z (t_p t) + IZR (t_z t) * bz).
Definition displaced (x s b : R) : R := u53 * (Rabs x + 3 * Rabs (s * b)).
(** What the rounding of the three coordinates adds. *)
Definition moved3 (bx by_ bz : R) (t : turn3) : R :=
  Rabs (r_m (t_p t)) * VisModel.kernel3 0 (VisModel.gamma3 * r_h (t_p t))
  * (17 / 8 * ((displaced (r_x (t_p t)) (IZR (t_x t)) bx + displaced (r_y (t_p t)) (IZR (t_y t)) by_ + displaced (r_z (t_p t)) (IZR (t_z t)) bz) / (VisModel.gamma3 * r_h (t_p t)))).

Lemma flat_turns3 sh bx by_ bz (f : rpart rounded -> R -> R -> R -> list (list Z * R)) ps :
  flat_map (fun p => copies3 rounded sh bx by_ bz (f p) p) ps = flat_map (fun t => placed bx by_ bz (f (t_p t)) t) (turns3 sh bx by_ bz ps).
Proof.
  unfold turns3. induction ps as [|p ps IH]; [reflexivity|]. cbn [flat_map]. rewrite flat_map_app, <- IH. apply (f_equal2 (@app _)); [|reflexivity]. clear IH.
  unfold copies3. induction (sh bx) as [|sx l IH]; [reflexivity|]. cbn [flat_map]. rewrite flat_map_app, <- IH. apply (f_equal2 (@app _)); [|reflexivity]. clear IH.
  induction (sh by_) as [|sy l' IH]; [reflexivity|]. cbn [flat_map]. rewrite flat_map_app, <- IH. apply (f_equal2 (@app _)); [|reflexivity]. clear IH.
  induction (sh bz) as [|sz l'' IH]; [reflexivity|]. cbn [flat_map map]. apply (f_equal2 (@app _)); [reflexivity|exact IH].
Qed.
Lemma point_moved m h a b c a' b' c' d : 0 < h -> Rabs (a - a') + Rabs (b - b') + Rabs (c - c') <= d ->
  Rabs (exact_point m h (length3 a b c) - exact_point m h (length3 a' b' c')) <= Rabs m * VisModel.kernel3 0 (VisModel.gamma3 * h) * (17 / 8 * (d / (VisModel.gamma3 * h))).
Proof.
  intros Hh D. pose proof (radius3_pos h Hh) as HH. unfold exact_point. set (H := VisModel.gamma3 * h) in *. clearbody H. pose proof (length3_triangle a b c a' b' c') as T.
  assert (r0 : 0 <= length3 a b c) by apply sqrt_pos. assert (r0' : 0 <= length3 a' b' c') by apply sqrt_pos.
  set (r := length3 a b c) in *. set (r' := length3 a' b' c') in *. clearbody r r'. rewrite (kernel3_cut r), (kernel3_cut r') by assumption. pose proof (centre3_pos H HH) as W.
  assert (I : 0 < / H) by (apply Rinv_0_lt_compat; exact HH).
  pose proof (cut_lipschitz (r / H) (r' / H) (quotient_pos _ _ r0 HH) (quotient_pos _ _ r0' HH)) as L.
  replace (r / H - r' / H) with ((r - r') * / H) in L by (field; lra). rewrite Rabs_mult, (Rabs_pos_eq (/ H)) in L by lra.
  set (w := VisModel.kernel3 0 H) in *.
  replace (m * (w * cut_shape (r / H)) - m * (w * cut_shape (r' / H))) with (m * w * (cut_shape (r / H) - cut_shape (r' / H))) by ring.
  rewrite !Rabs_mult, (Rabs_pos_eq w) by lra. apply Rmult_le_compat_l; [apply Rmult_le_pos; [apply Rabs_pos|lra]|].
  eapply Rle_trans; [exact L|]. assert (Rabs (r - r') * / H <= d * / H) by (apply Rmult_le_compat_r; lra).
  pose proof (Rabs_pos (r - r')). assert (0 <= Rabs (r - r') * / H) by (apply Rmult_le_pos; lra). unfold Rdiv at 3. lra.
Qed.
Lemma moved_abs a x y : Rabs (a - x - (a - y)) = Rabs (x - y).
Proof. replace (a - x - (a - y)) with (- (x - y)) by ring. apply Rabs_Ropp. Qed.

Theorem C144_slice_image : forall store u n zs bx by_ bz ps i j, stored store u -> (1 <= n < 2 ^ 24)%Z -> (0 <= i < n)%Z -> (0 <= j < n)%Z ->
  let ts := turns3 (shifts rounded) bx by_ bz ps in
  Forall (fun t => 0 < r_h (t_p t) /\ placed bx by_ bz (fun x y _ => fits n (r_h (t_p t)) x /\ fits n (r_h (t_p t)) y) t) ts ->
  let ex t := exactly_placed bx by_ bz (fun x y z => slice_exact n zs (r_m (t_p t)) (r_h (t_p t)) x y z i j) t in
  let er t := placed bx by_ bz (slice_bound n zs (r_m (t_p t)) (r_h (t_p t))) t + moved3 bx by_ bz t in
  Rabs (draw rounded store (flat_map (slice_part rounded n zs bx by_ bz) ps) [i; j] - sum ex ts)
  <= sum er ts + ((1 + u) ^ length ts - 1) * sum (fun t => Rabs (ex t) + er t) ts.
Proof.
  intros store u n zs bx by_ bz ps i j St Hn Hi Hj ts F ex er. unfold slice_part.
  rewrite (flat_turns3 (shifts rounded) bx by_ bz (fun p => slice_at rounded n zs (r_m p) (r_h p)) ps). fold ts.
  apply image_close; [exact St|]. eapply Forall_impl; [|exact F]. intros t (Hh & X & Y). unfold ex, er, placed, exactly_placed in *.
  eapply near_moved; [apply slice_near; assumption|]. unfold slice_exact, moved3. apply point_moved; [exact Hh|].
  rewrite !moved_abs. replace (shifted rounded (r_z (t_p t)) (t_z t) bz - zs - (r_z (t_p t) + IZR (t_z t) * bz - zs)) with (shifted rounded (r_z (t_p t)) (t_z t) bz - (r_z (t_p t) + IZR (t_z t) * bz))
    by (match goal with |- @eq _ ?a ?b => change (@eq R a b) end; ring).
  apply Rplus_le_compat; [apply Rplus_le_compat|]; apply shifted_close.
Qed.

Lemma volume_close sh store u nz n bx by_ bz ps i j k : stored store u -> (1 <= n < 2 ^ 24)%Z -> (1 <= nz < 2 ^ 24)%Z -> (0 <= i < n)%Z -> (0 <= j < n)%Z -> (0 <= k < nz)%Z ->
  let ts := turns3 sh bx by_ bz ps in
  Forall (fun t => 0 < r_h (t_p t) /\ open3 n (r_h (t_p t)) /\ open3 nz (r_h (t_p t))
    /\ placed bx by_ bz (fun x y z => fits n (r_h (t_p t)) x /\ fits n (r_h (t_p t)) y /\ fits nz (r_h (t_p t)) z) t) ts ->
  let ex t := exactly_placed bx by_ bz (fun x y z => voxel_exact nz n (r_m (t_p t)) (r_h (t_p t)) x y z i j k) t in
  let er t := placed bx by_ bz (voxel_bound nz n (r_m (t_p t)) (r_h (t_p t))) t + moved3 bx by_ bz t in
  Rabs (draw rounded store (flat_map (fun p => copies3 rounded sh bx by_ bz (voxel_at rounded nz n (r_m p) (r_h p)) p) ps) [i; j; k] - sum ex ts)
  <= sum er ts + ((1 + u) ^ length ts - 1) * sum (fun t => Rabs (ex t) + er t) ts.
Proof.
  intros St Hn Hnz Hi Hj Hk ts F ex er.
  rewrite (flat_turns3 sh bx by_ bz (fun p => voxel_at rounded nz n (r_m p) (r_h p)) ps). fold ts.
  apply image_close; [exact St|]. eapply Forall_impl; [|exact F]. intros t (Hh & O & O' & X & Y & Z). unfold ex, er, placed, exactly_placed in *.
  eapply near_moved; [apply voxel_near; assumption|]. unfold voxel_exact, moved3. apply point_moved; [exact Hh|].
  rewrite !moved_abs. apply Rplus_le_compat; [apply Rplus_le_compat|]; apply shifted_close.
Qed.
(** The same number of voxels along each axis, and [ratio] times fewer along the last. *)
Theorem C144_volume_image : forall store u n bx by_ bz ps i j k, stored store u -> (1 <= n < 2 ^ 24)%Z -> (0 <= i < n)%Z -> (0 <= j < n)%Z -> (0 <= k < n)%Z ->
  let ts := turns3 (shifts rounded) bx by_ bz ps in
  Forall (fun t => 0 < r_h (t_p t) /\ open3 n (r_h (t_p t)) /\ placed bx by_ bz (fun x y z => fits n (r_h (t_p t)) x /\ fits n (r_h (t_p t)) y /\ fits n (r_h (t_p t)) z) t) ts ->
  let ex t := exactly_placed bx by_ bz (fun x y z => voxel_exact n n (r_m (t_p t)) (r_h (t_p t)) x y z i j k) t in
  let er t := placed bx by_ bz (voxel_bound n n (r_m (t_p t)) (r_h (t_p t))) t + moved3 bx by_ bz t in
  Rabs (draw rounded store (flat_map (volume_part rounded n bx by_ bz) ps) [i; j; k] - sum ex ts)
  <= sum er ts + ((1 + u) ^ length ts - 1) * sum (fun t => Rabs (ex t) + er t) ts.
Proof.
  intros store u n bx by_ bz ps i j k St Hn Hi Hj Hk ts F. apply (volume_close (shifts rounded) store u n n bx by_ bz ps i j k St Hn Hn Hi Hj Hk).
  eapply Forall_impl; [|exact F]. cbn beta. intros t (A & B & C). repeat split; try exact A; try exact B; apply C.
Qed.
Theorem C144_limited_image : forall store u n ratio bx by_ bz ps i j k, stored store u -> (1 <= n < 2 ^ 24)%Z -> (1 <= n / ratio < 2 ^ 24)%Z ->
  (0 <= i < n)%Z -> (0 <= j < n)%Z -> (0 <= k < n / ratio)%Z ->
  let ts := turns3 (shifts_limited rounded) bx by_ bz ps in
  Forall (fun t => 0 < r_h (t_p t) /\ open3 n (r_h (t_p t)) /\ open3 (n / ratio) (r_h (t_p t))
    /\ placed bx by_ bz (fun x y z => fits n (r_h (t_p t)) x /\ fits n (r_h (t_p t)) y /\ fits (n / ratio) (r_h (t_p t)) z) t) ts ->
  let ex t := exactly_placed bx by_ bz (fun x y z => voxel_exact (n / ratio) n (r_m (t_p t)) (r_h (t_p t)) x y z i j k) t in
  let er t := placed bx by_ bz (voxel_bound (n / ratio) n (r_m (t_p t)) (r_h (t_p t))) t + moved3 bx by_ bz t in
  Rabs (draw rounded store (flat_map (limited_part rounded n ratio bx by_ bz) ps) [i; j; k] - sum ex ts)
  <= sum er ts + ((1 + u) ^ length ts - 1) * sum (fun t => Rabs (ex t) + er t) ts.
Proof.
  intros store u n ratio bx by_ bz ps i j k St Hn Hnz Hi Hj Hk ts F. exact (volume_close (shifts_limited rounded) store u (n / ratio) n bx by_ bz ps i j k St Hn Hnz Hi Hj Hk F).
Qed.

(** * A case *)

(** A particle of mass 1 and smoothing length 1/2 in the middle of four by four by four voxels, and of a slice through it. *)
Theorem C144_case : let p := @mk_rpart rounded (1 / 2) (1 / 2) (1 / 2) 1 (1 / 2) in
  let ts := turns3 (shifts rounded) 0 0 0 [p] in
  ts = [mk_turn3 p 0 0 0]
  /\ Forall (fun t => 0 < r_h (t_p t) /\ open3 4 (r_h (t_p t)) /\ placed 0 0 0 (fun x y z => fits 4 (r_h (t_p t)) x /\ fits 4 (r_h (t_p t)) y /\ fits 4 (r_h (t_p t)) z) t) ts
  /\ 0 < sum (fun t => exactly_placed 0 0 0 (fun x y z => slice_exact 4 (1 / 2) (r_m (t_p t)) (r_h (t_p t)) x y z 1 1) t) ts
  /\ 0 < sum (fun t => exactly_placed 0 0 0 (fun x y z => voxel_exact 4 4 (r_m (t_p t)) (r_h (t_p t)) x y z 1 1 1) t) ts
  /\ sum (fun t => placed 0 0 0 (voxel_bound 4 4 (r_m (t_p t)) (r_h (t_p t))) t + moved3 0 0 0 t) ts <= VisModel.kernel3 0 (VisModel.gamma3 * (1 / 2)) * (3 / 100).
Proof.
  cbv zeta. assert (Z0 : rnd 53 0 = 0) by apply rnd_0.
  assert (Sh : shifts rounded 0 = [0%Z]).
  { unfold shifts. unfold zero. cbn [rounded equal lit]. replace (Q2R 0) with 0 by (unfold Q2R; cbn; lra). rewrite Z0. destruct (Req_EM_T 0 0); [reflexivity|congruence]. }
  assert (Sx : shifted rounded (1 / 2) 0 0 = 1 / 2).
  { unfold shifted. cbn [rounded add mul of_int]. unfold rnd2. rewrite Rmult_0_l, Z0, Rplus_0_r.
    apply rnd_id. replace (1 / 2) with (bpow radix2 (-1)) by (cbn; lra). apply generic_format_bpow. unfold FLX_exp. lia. }
  set (p := @mk_rpart rounded (1 / 2) (1 / 2) (1 / 2) 1 (1 / 2)).
  assert (E : turns3 (shifts rounded) 0 0 0 [p] = [mk_turn3 p 0 0 0]) by (unfold turns3; rewrite Sh; reflexivity).
  assert (HH : 0 < VisModel.gamma3 * (1 / 2)) by (apply radius3_pos; lra).
  assert (P : forall a b c, a * a + b * b + c * c < 9 / 40 -> 0 < exact_point 1 (1 / 2) (length3 a b c)).
  { intros a b c Q. unfold exact_point. rewrite Rmult_1_l, kernel3_cut by (try exact HH; apply sqrt_pos). apply Rmult_lt_0_compat; [apply centre3_pos, HH|].
    assert (L : 0 <= length3 a b c < 1 / 2).
    { split; [apply sqrt_pos|]. unfold length3. replace (1 / 2) with (sqrt (1 / 4)) by (replace (1 / 4) with (1 / 2 * (1 / 2)) by lra; apply sqrt_square; lra). apply sqrt_lt_1_alt. pose proof (squares_pos a b c). lra. }
    assert (QQ : 0 <= length3 a b c / (VisModel.gamma3 * (1 / 2)) < 1).
    { split; [apply quotient_pos; lra|]. apply Rmult_lt_reg_r with (VisModel.gamma3 * (1 / 2)); [exact HH|]. unfold Rdiv at 1. rewrite Rmult_assoc, Rinv_l by lra. unfold VisModel.gamma3. lra. }
    set (q := length3 a b c / _) in *. clearbody q. unfold cut_shape. destruct (Rlt_dec q 1); [|lra]. unfold shape. apply Rmult_lt_0_compat; [apply pow_lt; lra|lra]. }
  rewrite E. repeat match goal with |- _ /\ _ => split end.
  - reflexivity.
  - constructor; [|constructor]. unfold placed, fits, open3. cbn [t_p t_x t_y t_z p r_x r_y r_z r_h]. rewrite Sx. unfold VisModel.gamma3. rewrite Rabs_pos_eq by lra. repeat split; lra.
  - unfold sum, exactly_placed. cbn [fold_right t_p t_x t_y t_z p r_x r_y r_z r_h r_m]. rewrite Rplus_0_r. apply P. unfold centre. lra.
  - unfold sum, exactly_placed. cbn [fold_right t_p t_x t_y t_z p r_x r_y r_z r_h r_m]. rewrite Rplus_0_r. apply P. unfold centre. lra.
  - unfold sum, placed, moved3, voxel_bound, point_error, edge. cbn [fold_right t_p t_x t_y t_z p r_x r_y r_z r_h r_m]. rewrite Sx, Rabs_R1, !Rmult_1_l, Rplus_0_r.
    rewrite <- !Rmult_plus_distr_l. apply Rmult_le_compat_l; [apply Rlt_le, centre3_pos, HH|]. unfold off, displaced, VisModel.gamma3. rewrite !Rmult_0_l, Rabs_R0, !(Rabs_pos_eq (1 / 2)) by lra.
    pose proof u53_value. pose proof u24_value. lra.
Qed.

Print Assumptions C144_slice.
Print Assumptions C144_voxel.
Print Assumptions C144_slice_image.
Print Assumptions C144_volume_image.
Print Assumptions C144_limited_image.
Print Assumptions C144_case.

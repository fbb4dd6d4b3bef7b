(** C126: the numbers of pixels with rounded numbers. *)
From Coq Require Import List ZArith QArith Bool Floats.SpecFloat Reals Lia Lra Psatz.
From Flocq Require Import Core.
From Verif Require Import Base RoundModel RoundFloatModel RoundFloatTheorems RoundExactTheorems WrapSpec WrapTheorems RowsModel.
From Verif Require VisModel FrontModel FrontSpec.
Import ListNotations.
Open Scope R_scope.

#[local] Instance prec53'' : Prec_gt_0 53. Proof. reflexivity. Qed.

(** [k] pixels of the size [d] are needed for a length that differs from [len] by at most [e] of it. *)
Definition about_needed (e len d : R) (k : Z) : Prop := exists l, Rabs (l - len) <= e * len /\ FrontSpec.needed l d k.

Lemma n_format : forall n, (1 <= n < 2 ^ 53)%Z -> double_number (IZR n).
Proof. intros n H. apply int_format; lia. Qed.

Lemma ceil_needed : forall v d k, 0 < d -> Zceil v = k -> FrontSpec.needed (v * d) d k.
Proof.
  intros v d k Hd <-. pose proof (Zceil_ub v) as H. assert (IZR (Zceil v) < v + 1).
  { unfold Zceil. rewrite opp_IZR. pose proof (Zfloor_ub (- v)). lra. }
  unfold FrontSpec.needed. split; [apply Rmult_lt_compat_r; lra|apply Rmult_le_compat_r; lra].
Qed.

Lemma ceil_range : forall v n, 0 < v <= IZR n -> (1 <= Zceil v <= n)%Z.
Proof.
  intros v n (H0 & H1). split.
  - assert (0 < Zceil v)%Z by (apply lt_IZR; pose proof (Zceil_ub v); lra). lia.
  - apply Zceil_glb. exact H1.
Qed.

Lemma rnd_positive : forall x, 0 < x -> 0 < rnd 53 x.
Proof.
  intros x H. pose proof (rnd_error_abs x) as E. pose proof u53_small. rewrite (Rabs_pos_eq x) in E by lra. apply Rabs_le_inv in E. nra.
Qed.

Lemma two_errors : forall q a v, 0 < q -> Rabs (a - q) <= q * u53 -> forall c, 0 < c -> Rabs (v - a * c) <= a * c * u53 ->
  Rabs (v - q * c) <= 3 * u53 * (q * c).
Proof.
  intros q a v Hq Ha c Hc Hv. pose proof u53_small as U.
  replace (v - q * c) with ((v - a * c) + (a - q) * c) by ring. eapply Rle_trans; [apply Rabs_triang|].
  rewrite Rabs_mult, (Rabs_pos_eq c) by lra.
  assert (H1 : Rabs (a - q) * c <= q * u53 * c) by (apply Rmult_le_compat_r; lra).
  apply Rabs_le_inv in Ha. assert (H2 : a <= q * (1001 / 1000)) by nra.
  assert (H3 : a * c <= q * (1001 / 1000) * c) by (apply Rmult_le_compat_r; lra).
  assert (H4 : a * c * u53 <= q * (1001 / 1000) * c * u53) by (apply Rmult_le_compat_r; lra).
  assert (0 < q * c * u53) by (apply Rmult_lt_0_compat; [nra|lra]). lra.
Qed.

(** At least one pixel and at most the resolution; all of it for the longer side; otherwise as many as are needed for
    the side, up to 3 * 2^-53 of its length. *)
Theorem C126_rows : forall n range extent, (1 <= n < 2 ^ 53)%Z -> 0 < range <= extent ->
  (1 <= rows_projection rounded n range extent <= n)%Z /\
  about_needed (3 * u53) range (extent / IZR n) (rows_projection rounded n range extent).
Proof.
  intros n range extent Hn (H0 & H1). unfold rows_projection. cbn [rounded int ceil mul div of_int]. rewrite Ztrunc_IZR.
  unfold rnd2. pose proof (IZR_le 1 n ltac:(lia)) as N1. set (a := rnd 53 (range / extent)). set (v := rnd 53 (IZR n * a)).
  assert (Q : 0 < range / extent <= 1).
  { split; [apply Rdiv_lt_0_compat; lra|]. apply (Rmult_le_reg_r extent); [lra|]. unfold Rdiv. rewrite Rmult_assoc, Rinv_l; lra. }
  assert (Pa : 0 < a) by (apply rnd_positive; lra). assert (La : a <= 1) by (rewrite <- rnd_1; apply rnd_le; lra).
  assert (Pv : 0 < v) by (apply rnd_positive, Rmult_lt_0_compat; lra).
  assert (Lv : v <= IZR n) by (rewrite <- (rnd_id (IZR n)) by (apply n_format, Hn); apply rnd_le; nra).
  split; [apply ceil_range; lra|]. exists (v * (extent / IZR n)). split; [|apply ceil_needed; [apply Rdiv_lt_0_compat; lra|reflexivity]].
  pose proof (rnd_error_abs (range / extent)) as Ea. fold a in Ea. rewrite (Rabs_pos_eq (range / extent)) in Ea by lra.
  pose proof (rnd_error_abs (IZR n * a)) as Ev. fold v in Ev. rewrite (Rabs_pos_eq (IZR n * a)) in Ev by nra.
  rewrite (Rmult_comm (IZR n) a) in Ev. pose proof (two_errors _ _ _ (proj1 Q) Ea (IZR n) ltac:(lra) Ev) as E.
  replace (v * (extent / IZR n) - range) with ((v - range / extent * IZR n) * (extent / IZR n)) by (field; lra).
  assert (D : 0 < extent / IZR n) by (apply Rdiv_lt_0_compat; lra).
  rewrite Rabs_mult, (Rabs_pos_eq (extent / IZR n)) by lra. apply (Rmult_le_compat_r (extent / IZR n)) in E; [|lra].
  eapply Rle_trans; [exact E|]. apply Req_le. field. lra.
Qed.

Theorem C126_longer_side : forall n extent, (1 <= n < 2 ^ 53)%Z -> 0 < extent -> rows_projection rounded n extent extent = n.
Proof.
  intros n extent Hn He. unfold rows_projection. cbn [rounded int ceil mul div of_int]. rewrite Ztrunc_IZR. unfold rnd2.
  replace (extent / extent) with 1 by (field; lra). rewrite rnd_1, Rmult_1_r, rnd_id by (apply n_format, Hn). apply Zceil_IZR.
Qed.

(** In slices the product is rounded before the division: there can be one row more than the resolution. *)
Theorem C126_rows_slice : forall n range extent, (1 <= n < 2 ^ 50)%Z -> 0 < range <= extent ->
  (1 <= rows_slice rounded n range extent <= n + 1)%Z /\
  about_needed (3 * u53) range (extent / IZR n) (rows_slice rounded n range extent) /\
  (range = extent -> (n <= rows_slice rounded n range extent)%Z).
Proof.
  intros n range extent Hn (H0 & H1). unfold rows_slice. cbn [rounded int ceil mul div of_int]. rewrite Ztrunc_IZR.
  unfold rnd2. pose proof (IZR_le 1 n ltac:(lia)) as N1. pose proof u53_small as U. set (a := rnd 53 (IZR n * range)). set (v := rnd 53 (a / extent)).
  assert (Q : 0 < IZR n * range) by (apply Rmult_lt_0_compat; lra).
  assert (Pa : 0 < a) by (apply rnd_positive; lra).
  assert (Pv : 0 < v) by (apply rnd_positive, Rdiv_lt_0_compat; lra).
  assert (I : 0 < / extent) by (apply Rinv_0_lt_compat; lra).
  pose proof (rnd_error_abs (IZR n * range)) as Ea. fold a in Ea. rewrite (Rabs_pos_eq (IZR n * range)) in Ea by lra.
  pose proof (rnd_error_abs (a / extent)) as Ev. fold v in Ev.
  assert (0 < a / extent) by (apply Rdiv_lt_0_compat; lra). rewrite (Rabs_pos_eq (a / extent)) in Ev by lra.
  pose proof (two_errors _ _ _ Q Ea (/ extent) I Ev) as E. change (IZR n * range * / extent) with (IZR n * range / extent) in E.
  assert (Small : 3 * u53 * IZR n < 1).
  { assert (IZR n < IZR (2 ^ 50)) by (apply IZR_lt; lia). assert (u53 * IZR (2 ^ 50) = / 8).
    { rewrite u53_bpow. change (2 ^ 50)%Z with (Zpower radix2 50). rewrite IZR_Zpower by lia. rewrite <- bpow_plus. cbn. lra. }
    assert (u53 * IZR n < u53 * IZR (2 ^ 50)) by (apply Rmult_lt_compat_l; lra). lra. }
  assert (Q1 : IZR n * range / extent <= IZR n).
  { apply (Rmult_le_reg_r extent); [lra|]. unfold Rdiv. rewrite Rmult_assoc, Rinv_l by lra. nra. }
  assert (Q2 : 3 * u53 * (IZR n * range / extent) <= 3 * u53 * IZR n) by (apply Rmult_le_compat_l; lra).
  split.
  { apply ceil_range. split; [exact Pv|]. rewrite plus_IZR. apply Rabs_le_inv in E. lra. }
  split.
  - exists (v * (extent / IZR n)). split; [|apply ceil_needed; [apply Rdiv_lt_0_compat; lra|reflexivity]].
    replace (v * (extent / IZR n) - range) with ((v - IZR n * range / extent) * (extent / IZR n)) by (field; lra).
    assert (D : 0 < extent / IZR n) by (apply Rdiv_lt_0_compat; lra).
    rewrite Rabs_mult, (Rabs_pos_eq (extent / IZR n)) by lra. apply (Rmult_le_compat_r (extent / IZR n)) in E; [|lra].
    eapply Rle_trans; [exact E|]. apply Req_le. field. lra.
  - intros ->. replace (IZR n * extent / extent) with (IZR n) in * by (field; lra).
    assert (n - 1 < Zceil v)%Z; [|lia]. apply lt_IZR. rewrite minus_IZR. pose proof (Zceil_ub v). apply Rabs_le_inv in E. lra.
Qed.

(** Not if the resolution is a power of two: then products with it are exact. *)
Theorem C126_power_of_two : forall e range extent, (0 <= e < 53)%Z -> double_number range -> double_number extent -> 0 < range <= extent ->
  let n := (2 ^ e)%Z in
  rows_slice rounded n range extent = rows_projection rounded n range extent /\ (1 <= rows_slice rounded n range extent <= n)%Z
  /\ (range = extent -> rows_slice rounded n range extent = n).
Proof.
  intros e range extent He Fr Fe H n.
  assert (Hn : (1 <= n < 2 ^ 53)%Z).
  { unfold n. split; [assert (0 < 2 ^ e)%Z by (apply Z.pow_pos_nonneg; lia); lia|apply Z.pow_lt_mono_r; lia]. }
  assert (En : IZR n = bpow radix2 e) by (unfold n; rewrite <- IZR_Zpower by lia; reflexivity).
  assert (Sh : forall x, rnd 53 (x * bpow radix2 e) = rnd 53 x * bpow radix2 e).
  { intro x. unfold rnd.
    destruct (Req_dec x 0) as [->|Nx]; [rewrite Rmult_0_l, !round_0 by typeclasses eauto; ring|].
    unfold round, F2R, scaled_mantissa, cexp. cbn [Fnum Fexp]. rewrite mag_mult_bpow by exact Nx. unfold FLX_exp.
    replace (x * bpow radix2 e * bpow radix2 (- (mag radix2 x + e - 53))) with (x * bpow radix2 (- (mag radix2 x - 53))).
    - rewrite Rmult_assoc, <- bpow_plus. do 2 f_equal. lia.
    - rewrite Rmult_assoc, <- bpow_plus. do 2 f_equal. lia. }
  assert (Same : rows_slice rounded n range extent = rows_projection rounded n range extent).
  { unfold rows_slice, rows_projection. cbn [rounded int ceil mul div of_int]. unfold rnd2. do 3 f_equal. rewrite En.
    rewrite (Rmult_comm _ range), Sh, (rnd_id range Fr), (Rmult_comm (bpow radix2 e)), Sh.
    rewrite (rnd_id (rnd 53 (range / extent))) by apply rnd_format.
    replace (range * bpow radix2 e / extent) with (range / extent * bpow radix2 e) by (field; lra). apply Sh. }
  split; [exact Same|]. rewrite Same. split; [apply (C126_rows n range extent Hn H)|]. intros ->. apply C126_longer_side; [exact Hn|lra].
Qed.

(** The shapes for regions whose limits are in order: projections reach the resolution and never pass it; slices reach
    it and pass it by one at most. *)
Theorem C126_shapes : forall n x0 x1 y0 y1, (1 <= n < 2 ^ 50)%Z -> x0 < x1 -> y0 < y1 ->
  (let '(a, b) := shape_projection rounded n x0 x1 y0 y1 in (1 <= a <= n)%Z /\ (1 <= b <= n)%Z /\ Z.max a b = n) /\
  (let '(a, b) := shape_slice rounded n x0 x1 y0 y1 in (1 <= a)%Z /\ (1 <= b)%Z /\ (n <= Z.max a b <= n + 1)%Z).
Proof.
  intros n x0 x1 y0 y1 Hn Hx Hy. unfold shape_projection, shape_slice, larger_range. cbn [rounded sub larger]. unfold rnd2.
  set (x := rnd 53 (x1 - x0)). set (y := rnd 53 (y1 - y0)).
  assert (Px : 0 < x) by (apply rnd_positive; lra). assert (Py : 0 < y) by (apply rnd_positive; lra).
  assert (Hn' : (1 <= n < 2 ^ 53)%Z) by lia.
  assert (Ok : forall m, x <= m -> y <= m -> m = x \/ m = y ->
    ((1 <= cut n (rows_projection rounded n x m) <= n)%Z /\ (1 <= cut n (rows_projection rounded n y m) <= n)%Z /\
      Z.max (cut n (rows_projection rounded n x m)) (cut n (rows_projection rounded n y m)) = n) /\
    ((1 <= rows_slice rounded n x m)%Z /\ (1 <= rows_slice rounded n y m)%Z /\
      (n <= Z.max (rows_slice rounded n x m) (rows_slice rounded n y m) <= n + 1)%Z)).
  { intros m Mx My M.
    destruct (C126_rows n x m Hn' (conj Px Mx)) as (Rx & _). destruct (C126_rows n y m Hn' (conj Py My)) as (Ry & _).
    destruct (C126_rows_slice n x m Hn (conj Px Mx)) as (Sx & _ & Lx). destruct (C126_rows_slice n y m Hn (conj Py My)) as (Sy & _ & Ly).
    assert (C : forall k, (1 <= k <= n)%Z -> cut n k = k). { intros k Hk. unfold cut. destruct (Z.ltb_spec k 0); lia. }
    rewrite (C _ Rx), (C _ Ry). destruct M as [->| ->].
    - pose proof (C126_longer_side n x Hn' Px). specialize (Lx eq_refl). lia.
    - pose proof (C126_longer_side n y Hn' Py). specialize (Ly eq_refl). lia. }
  match goal with |- context [rows_projection rounded n x ?m] => destruct (Ok m) as (P & Q) end; [| | |split; [exact P|exact Q]].
  all: unfold Rmax; repeat destruct (Rle_dec _ _); try lra; auto.
Qed.

(** In double precision: a slice of a square of side 0.7 with a resolution of 1000 has 1001 times 1001 pixels. *)
Theorem C126_resolution_refuted : exists n side, n = 1000%Z /\ side = lit ieee (7 # 10) /\
  shape_slice ieee n (dbl 0 0) side (dbl 0 0) side = (1001%Z, 1001%Z) /\
  shape_projection ieee n (dbl 0 0) side (dbl 0 0) side = (1000%Z, 1000%Z).
Proof.
  exists 1000%Z, (lit ieee (7 # 10)). split; [reflexivity|]. split; [reflexivity|]. split; vm_compute; reflexivity.
Qed.

(** A projection can have a row more than is needed, which the slice of the same region does not have. *)
Theorem C126_same_shape_refuted : exists n w h, n = 100%Z /\ w = dbl 20 0 /\ h = dbl 11 0 /\
  shape_projection ieee n (dbl 0 0) w (dbl 0 0) h = (100%Z, 56%Z) /\ shape_slice ieee n (dbl 0 0) w (dbl 0 0) h = (100%Z, 55%Z).
Proof.
  exists 100%Z, (dbl 20 0), (dbl 11 0). repeat match goal with |- _ /\ _ => split end; vm_compute; reflexivity.
Qed.

(** * With exact numbers the model is that of FrontModel.v *)
Theorem C126_exact : forall n range extent,
  rows_projection exact n range extent = FrontModel.pixels n range extent
  /\ rows_slice exact n range extent = FrontModel.pixels_slice n range extent
  /\ (forall rows, cut n rows = FrontModel.stop_index n rows).
Proof.
  intros n range extent. unfold rows_projection, rows_slice. cbn [exact int ceil mul div of_int].
  rewrite !trunc_IZR. split; [reflexivity|]. split; reflexivity.
Qed.

(** * Concrete cases *)
Example C126_example :
  shape_projection ieee 100 (dbl 1 0) (dbl 5 0) (dbl 0 0) (dbl 3 0) = (100%Z, 75%Z)
  /\ shape_slice ieee 100 (dbl 1 0) (dbl 5 0) (dbl 0 0) (dbl 3 0) = (100%Z, 75%Z)
  /\ shape_slice ieee 1024 (dbl 0 0) (lit ieee (7 # 10)) (dbl 0 0) (lit ieee (7 # 10)) = (1024%Z, 1024%Z)
  /\ shape_slice ieee 10 (dbl 0 0) (dbl 1 0) (dbl 0 0) (dbl 1 3) = (2%Z, 10%Z)
  /\ shape_projection ieee 10 (dbl 0 0) (dbl (-1) 0) (dbl 0 0) (dbl 1 1) = (5%Z, 10%Z).
Proof. repeat match goal with |- _ /\ _ => split end; vm_compute; reflexivity. Qed.

Example C126_example_met : (1 <= 1000 < 2 ^ 50)%Z /\ 0 < / 2 <= 1 /\ double_number (/ 2) /\ double_number 1.
Proof.
  split; [lia|]. split; [lra|]. split; [|apply (int_format 53 1); lia].
  replace (/ 2) with (bpow radix2 (-1)) by (cbn; lra). apply generic_format_bpow. unfold FLX_exp. lia.
Qed.

Print Assumptions C126_rows.
Print Assumptions C126_longer_side.
Print Assumptions C126_rows_slice.
Print Assumptions C126_power_of_two.
Print Assumptions C126_shapes.
Print Assumptions C126_resolution_refuted.
Print Assumptions C126_same_shape_refuted.
Print Assumptions C126_exact.

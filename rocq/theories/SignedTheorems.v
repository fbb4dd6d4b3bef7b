(** C143 with the signatures of compiled kernels: single precision for the radius, the width and the value of the kernel, and
    for what the GPU adds. *)
From Coq Require Import List ZArith QArith Bool Reals Lia Lra Psatz Qreals Permutation.
From Flocq Require Import Core.
From Verif Require Import Base BaseLemmas RoundModel RoundFloatModel RoundFloatTheorems WrapSpec WrapTheorems KroundTheorems.
From Verif Require Import RoundSumSpec RoundSumModel RoundSumProofs RoundSumTheorems PixTheorems SolidTheorems SharedTheorems SignedModel.
From Verif Require VisModel RoundExactTheorems.
Import ListNotations.
Open Scope R_scope.

(** What is done to a product: nothing, or narrowing. *)
Definition added (out : R -> R) : Prop := forall v, Rabs (out v - v) <= Rabs v * u24.
Lemma added_id : added (fun v => v). Proof. intro v. rewrite Rminus_diag_eq, Rabs_R0 by reflexivity. pose proof (Rabs_pos v). pose proof u24_value. nra. Qed.
Lemma added_single : added (single rounded). Proof. exact rnd24_abs. Qed.
Lemma added_factor out x : added out -> exists t, Rabs (t - 1) <= u24 /\ out x = x * t.
Proof.
  intro Ho. pose proof (Ho x) as E. destruct (Req_EM_T x 0) as [->|N].
  - exists 1. rewrite Rminus_diag_eq, Rabs_R0 by reflexivity. split; [pose proof u24_value; lra|]. rewrite Rabs_R0, Rmult_0_l, Rminus_0_r in E. pose proof (Rabs_pos (out 0)).
    assert (Z : Rabs (out 0) = 0) by lra. destruct (Req_EM_T (out 0) 0) as [->|Q]; [lra|]. apply Rabs_no_R0 in Q. contradiction.
  - exists (out x / x). split; [|field; exact N]. replace (out x / x - 1) with ((out x - x) * / x) by (field; exact N).
    rewrite Rabs_mult, Rabs_inv. assert (P : 0 < Rabs x) by (apply Rabs_pos_lt; exact N). apply Rmult_le_reg_r with (Rabs x); [exact P|]. rewrite Rmult_assoc, Rinv_l by lra. lra.
Qed.
Lemma wid_close wid h : added wid -> 0 < h -> exists g, Rabs (g - 1) <= 2001 / 1000 * u24 /\ wid (mul rounded (gamma2 rounded) h) = VisModel.gamma2 * h * g.
Proof.
  intros Hw Hh. destruct (width_close h Hh) as (g & G & ->). destruct (added_factor wid (VisModel.gamma2 * h * g) Hw) as (g1 & G1 & ->). exists (g * g1). split; [|ring].
  pose proof u53_value. pose proof u24_value. apply Rabs_le_inv in G, G1. apply Rabs_le. split; nra.
Qed.

Lemma compiled_close rho rho' d t g H : 0 < H -> 0 <= rho -> 0 <= rho' -> Rabs (rho' - rho) <= d -> fac 3 t -> Rabs (g - 1) <= 2001 / 1000 * u24 ->
  Rabs (compiled_kernel rounded (rho' * t) (H * g) - VisModel.kernel2 rho H) <= VisModel.kernel2 0 H * (17 * u24 + 136 / 64 * (d / H)).
Proof.
  intros HH Hr Hr' D F G. pose proof u53_value as U. pose proof u24_value as V. pose proof (fac_pos _ _ F) as T0.
  unfold compiled_kernel. cbn [rounded single].
  destruct (added_factor _ (rho' * t) added_single) as (t1 & T1 & E1). destruct (added_factor _ (H * g) added_single) as (g1' & G1 & E2). cbn [rounded single] in E1, E2. rewrite E1, E2, !Rmult_assoc. clear E1 E2.
  apply fac_error in F; [|lia]. apply Rabs_le_inv in G, F, T1, G1.
  assert (TT : Rabs (t * t1 - 1) <= 1001 / 1000 * u24) by (apply Rabs_le; split; nra).
  assert (GG : Rabs (g * g1' - 1) <= 3002 / 1000 * u24) by (apply Rabs_le; split; nra).
  set (s := t * t1) in *. set (g2 := g * g1') in *. clearbody s g2. clear F G T1 G1 t t1 g g1' T0. apply Rabs_le_inv in TT, GG.
  assert (s0 : 0 < s) by lra. assert (g0 : 0 < g2) by lra. assert (HG : 0 < H * g2) by (apply Rmult_lt_0_compat; lra).
  assert (RT : 0 <= rho' * s) by (apply Rmult_le_pos; lra). pose proof (C133_projection_single (rho' * s) (H * g2) RT HG) as K.
  rewrite (kernel2_cut (rho' * s)) in K by assumption. rewrite (kernel2_cut rho) by assumption.
  set (k := kernel2 rounded (single rounded) (rho' * s) (H * g2)) in *. change (kernel2 rounded (rnd 24) (rho' * s) (H * g2)) with k. clearbody k. change (num rounded) with R in k.
  assert (Ig : 0 < / g2) by (apply Rinv_0_lt_compat; exact g0). assert (gV : g2 * / g2 = 1) by (field; lra).
  assert (Kg : VisModel.kernel2 0 (H * g2) = VisModel.kernel2 0 H * (/ g2 * / g2)) by (rewrite !centre2 by assumption; field; split; lra).
  pose proof (centre2_pos H HH) as K0. rewrite Kg in K. set (w := VisModel.kernel2 0 H) in *. clearbody w. clear Kg.
  pose proof (quotient_pos rho H Hr HH) as q0. pose proof (quotient_pos rho' H Hr' HH) as q1.
  assert (Eq : rho' * s / (H * g2) = rho' / H * (s * / g2)) by (field; split; lra). rewrite Eq in K.
  assert (S0 : 0 < s * / g2) by (apply Rmult_lt_0_compat; lra).
  pose proof (cut_scaled (rho' / H) (s * / g2) q1 S0) as C1. pose proof (cut_lipschitz (rho' / H) (rho / H) q1 q0) as C2.
  assert (q2 : 0 <= rho' / H * (s * / g2)) by (apply Rmult_le_pos; lra).
  pose proof (cut_bound _ q2) as B. pose proof (cut_bound _ q0) as B0.
  set (c := cut_shape (rho' / H * (s * / g2))) in *. set (c' := cut_shape (rho' / H)) in *. set (c0 := cut_shape (rho / H)) in *. clearbody c c' c0.
  assert (d0 : 0 <= d) by (pose proof (Rabs_pos (rho' - rho)); lra). pose proof (quotient_pos d H d0 HH) as q3.
  assert (C2' : Rabs (c' - c0) <= 135 / 64 * (d / H)).
  { eapply Rle_trans; [exact C2|]. apply Rmult_le_compat_l; [lra|]. replace (rho' / H - rho / H) with ((rho' - rho) * / H) by (field; lra).
    assert (0 < / H) by (apply Rinv_0_lt_compat; exact HH). rewrite Rabs_mult, (Rabs_pos_eq (/ H)) by lra. apply Rmult_le_compat_r; lra. }
  set (q := d / H) in *. clearbody q.
  assert (g1 : 1 - 3003 / 1000 * u24 <= / g2 <= 1 + 3003 / 1000 * u24) by (split; nra).
  assert (s1 : Rabs (s * / g2 - 1) <= 4005 / 1000 * u24) by (apply Rabs_le; split; nra).
  assert (gg : Rabs (/ g2 * / g2 - 1) <= 6007 / 1000 * u24) by (apply Rabs_le; split; nra).
  assert (C1' : Rabs (c - c') <= 135 / 64 * (4005 / 1000 * u24)) by (eapply Rle_trans; [exact C1|]; apply Rmult_le_compat_l; lra).
  set (j := / g2 * / g2) in *. clearbody j.
  assert (K' : Rabs (k - w * j * c) <= w * (1004 / 1000 * u24)).
  { eapply Rle_trans; [exact K|]. apply Rabs_le_inv in gg. replace ((u24 + 82 * u53) * (w * j)) with (w * ((u24 + 82 * u53) * j)) by ring. apply Rmult_le_compat_l; [lra|]. nra. }
  assert (M : Rabs ((j - 1) * c + (c - c' + (c' - c0))) <= 6007 / 1000 * u24 + (135 / 64 * (4005 / 1000 * u24) + 135 / 64 * q)).
  { eapply Rle_trans; [apply Rabs_triang|]. apply Rplus_le_compat; [|eapply Rle_trans; [apply Rabs_triang|]; lra].
    rewrite Rabs_mult, (Rabs_pos_eq c) by lra. pose proof (Rabs_pos (j - 1)). nra. }
  assert (N : Rabs (k - w * c0) <= w * (1550 / 100 * u24 + 135 / 64 * q)).
  { replace (k - w * c0) with ((k - w * j * c) + w * ((j - 1) * c + ((c - c') + (c' - c0)))) by ring.
    eapply Rle_trans; [apply Rabs_triang|]. rewrite Rabs_mult, (Rabs_pos_eq w) by lra.
    apply Rle_trans with (w * (1004 / 1000 * u24) + w * (6007 / 1000 * u24 + (135 / 64 * (4005 / 1000 * u24) + 135 / 64 * q))).
    - apply Rplus_le_compat; [exact K'|]. apply Rmult_le_compat_l; lra.
    - rewrite <- Rmult_plus_distr_l. apply Rmult_le_compat_l; lra. }
  pose proof (rnd24_abs k) as E. assert (Bk : Rabs k <= w * (11 / 10 + 3 * q)).
  { replace k with ((k - w * c0) + w * c0) by ring. eapply Rle_trans; [apply Rabs_triang|]. rewrite (Rabs_pos_eq (w * c0)) by (apply Rmult_le_pos; lra).
    assert (w * c0 <= w * 1) by (apply Rmult_le_compat_l; lra). assert (w * (1550 / 100 * u24 + 135 / 64 * q) <= w * (1 / 10 + 3 * q)) by (apply Rmult_le_compat_l; lra). lra. }
  replace (rnd 24 k - w * c0) with ((rnd 24 k - k) + (k - w * c0)) by ring. eapply Rle_trans; [apply Rabs_triang|].
  assert (E' : Rabs k * u24 <= w * ((11 / 10 + 3 * q) * u24)) by (rewrite <- Rmult_assoc; apply Rmult_le_compat_r; lra).
  apply Rle_trans with (w * ((11 / 10 + 3 * q) * u24) + w * (1550 / 100 * u24 + 135 / 64 * q)); [lra|]. rewrite <- Rmult_plus_distr_l. apply Rmult_le_compat_l; [lra|]. nra.
Qed.

Definition signed_error (k : copy) : R :=
  Rabs (k_m k) * VisModel.kernel2 0 (VisModel.gamma2 * k_h k) * (19 * u24 + 9 / 4 * ((off (k_x k) + off (k_y k)) / (VisModel.gamma2 * k_h k))).

Lemma signed_value wid out n i j k : added wid -> added out -> (1 <= n < 2 ^ 24)%Z -> (0 <= i < n)%Z -> (0 <= j < n)%Z -> 0 < k_h k ->
  let pixel_width := div rounded (one rounded) (single rounded (of_int rounded n)) in
  Rabs (out (mul rounded (k_m k) (compiled_kernel rounded
    (root rounded (add rounded (square_of rounded (distance rounded (single rounded) pixel_width i (k_x k)))
                               (square_of rounded (distance rounded (single rounded) pixel_width j (k_y k)))))
    (wid (mul rounded (gamma2 rounded) (k_h k))))) - exact_of n i j k) <= signed_error k.
Proof.
  intros Hw Ho Hn Hi Hj Hh. destruct k as [m h x y]. unfold exact_of, exact_value, signed_error. cbn [k_m k_h k_x k_y] in *. cbv zeta.
  pose proof (distance_close n i x Hn Hi) as Dx. pose proof (distance_close n j y Hn Hj) as Dy.
  set (dx := distance rounded _ _ i x) in *. set (dy := distance rounded _ _ j y) in *.
  destruct (root_value dx dy) as (t & Ft & ->). destruct (wid_close wid h Hw Hh) as (g & Gg & ->).
  pose proof (root_triangle dx dy (centre n i - x) (centre n j - y)) as T.
  assert (HH : 0 < VisModel.gamma2 * h) by (unfold VisModel.gamma2; lra). set (H := VisModel.gamma2 * h) in *. clearbody H.
  pose proof (compiled_close (sqrt ((centre n i - x) * (centre n i - x) + (centre n j - y) * (centre n j - y))) (sqrt (dx * dx + dy * dy)) (off x + off y) t g H HH
    (sqrt_pos _) (sqrt_pos _) ltac:(eapply Rle_trans; [exact T|]; apply Rplus_le_compat; assumption) Ft Gg) as K.
  cbn [rounded mul]. unfold rnd2. set (k := compiled_kernel rounded (sqrt (dx * dx + dy * dy) * t) (H * g)) in *.
  set (r := sqrt ((centre n i - x) * (centre n i - x) + (centre n j - y) * (centre n j - y))) in *. assert (Hr : 0 <= r) by apply sqrt_pos.
  pose proof (centre2_pos H HH) as W. assert (Q : 0 <= VisModel.kernel2 r H <= VisModel.kernel2 0 H).
  { rewrite (kernel2_cut r H Hr HH). pose proof (cut_bound (r / H) (quotient_pos r H Hr HH)). nra. }
  set (e := VisModel.kernel2 r H) in *. set (w := VisModel.kernel2 0 H) in *.
  assert (Pd : 0 <= (off x + off y) / H) by (pose proof (off_pos x); pose proof (off_pos y); apply quotient_pos; lra).
  set (q := (off x + off y) / H) in *. clearbody q e w r. clear T Dx Dy. clearbody k. change (num rounded) with R in k.
  pose proof u53_value as U. pose proof u24_value as V. pose proof (rnd_error_abs (m * k)) as E. pose proof (Rabs_pos m) as Pm. pose proof (Ho (rnd 53 (m * k))) as O.
  set (v := rnd 53 (m * k)) in *. set (o := out v) in *. clearbody v o.
  assert (B : Rabs k <= w * (11 / 10 + 3 * q)).
  { replace k with ((k - e) + e) by ring. eapply Rle_trans; [apply Rabs_triang|]. rewrite (Rabs_pos_eq e) by lra.
    assert (w * (17 * u24 + 136 / 64 * q) <= w * (1 / 10 + 3 * q)) by (apply Rmult_le_compat_l; lra). lra. }
  rewrite Rabs_mult in E. set (a := Rabs m * w) in *. assert (a0 : 0 <= a) by (apply Rmult_le_pos; lra).
  assert (X0 : Rabs m * Rabs k <= a * (11 / 10 + 3 * q)) by (unfold a; rewrite Rmult_assoc; apply Rmult_le_compat_l; assumption).
  assert (X2 : Rabs (m * (k - e)) <= a * (17 * u24 + 136 / 64 * q)) by (rewrite Rabs_mult; unfold a; rewrite Rmult_assoc; apply Rmult_le_compat_l; assumption).
  assert (X1 : Rabs (v - m * k) <= a * ((11 / 10 + 3 * q) * u53)) by (eapply Rle_trans; [exact E|]; rewrite <- Rmult_assoc; apply Rmult_le_compat_r; lra).
  assert (Xv : Rabs v <= a * (12 / 10 + 4 * q)).
  { replace v with ((v - m * k) + m * k) by ring. eapply Rle_trans; [apply Rabs_triang|]. rewrite (Rabs_mult m k).
    apply Rle_trans with (a * ((11 / 10 + 3 * q) * u53) + a * (11 / 10 + 3 * q)); [lra|]. rewrite <- Rmult_plus_distr_l. apply Rmult_le_compat_l; [exact a0|]. nra. }
  assert (X3 : Rabs (o - v) <= a * ((12 / 10 + 4 * q) * u24)) by (eapply Rle_trans; [exact O|]; rewrite <- Rmult_assoc; apply Rmult_le_compat_r; lra).
  replace (o - m * e) with ((o - v) + ((v - m * k) + m * (k - e))) by ring.
  eapply Rle_trans; [apply Rabs_triang|]. apply Rle_trans with (a * ((12 / 10 + 4 * q) * u24) + (a * ((11 / 10 + 3 * q) * u53) + a * (17 * u24 + 136 / 64 * q))).
  - apply Rplus_le_compat; [exact X3|]. eapply Rle_trans; [apply Rabs_triang|]. lra.
  - rewrite <- !Rmult_plus_distr_l. apply Rmult_le_compat_l; [exact a0|]. nra.
Qed.
Lemma signed_error_pos k : 0 < k_h k -> 0 <= signed_error k.
Proof.
  intro Hh. assert (HH : 0 < VisModel.gamma2 * k_h k) by (unfold VisModel.gamma2; lra). unfold signed_error. pose proof (centre2_pos _ HH). pose proof (Rabs_pos (k_m k)). pose proof u24_value.
  apply Rmult_le_pos; [apply Rmult_le_pos; lra|]. pose proof (off_pos (k_x k)). pose proof (off_pos (k_y k)). pose proof (quotient_pos (off (k_x k) + off (k_y k)) _ ltac:(lra) HH). lra.
Qed.

(** The cells of a kernel, as in PixTheorems.v. *)
Definition signed_span (wid : R -> R) (n : Z) (h : R) : Z :=
  int32 rounded (add rounded (one rounded) (wid (mul rounded (wid (mul rounded (gamma2 rounded) h)) (single rounded (of_int rounded n))))).
Lemma signed_span_bounds wid n h : added wid -> (1 <= n < 2 ^ 24)%Z -> 0 < h -> IZR n * (VisModel.gamma2 * h) <= 2 ^ 20 ->
  IZR n * (VisModel.gamma2 * h) - / 4 < IZR (signed_span wid n h).
Proof.
  intros Hw Hn Hh B. unfold signed_span. destruct (wid_close wid h Hw Hh) as (g & G & ->). unfold one. cbn [rounded int32 single of_int add mul lit]. unfold rnd2.
  rewrite lit_1, single_int by lia. assert (N : 0 < IZR n) by (apply IZR_lt; lia).
  assert (HH : 0 < VisModel.gamma2 * h) by (unfold VisModel.gamma2; lra). set (H := VisModel.gamma2 * h) in *. clearbody H.
  apply Rabs_le_inv in G. pose proof u53_value as U. pose proof u24_value as V.
  set (p := IZR n * H) in *. assert (p0 : 0 < p) by (apply Rmult_lt_0_compat; lra).
  replace (H * g * IZR n) with (p * g) by (unfold p; ring). clearbody p.
  assert (pg : 0 <= p * g) by (apply Rmult_le_pos; lra).
  destruct (fac_rnd (p * g) pg) as (a & [A1 A2] & ->). rewrite !pow_1 in A1, A2.
  destruct (added_factor wid (p * g * a) Hw) as (a1 & W1 & ->). apply Rabs_le_inv in W1.
  assert (pga : 0 <= p * g * a * a1) by (repeat apply Rmult_le_pos; lra).
  destruct (fac_rnd (1 + p * g * a * a1)) as (b & [B1 B2] & ->); [lra|]. rewrite !pow_1 in B1, B2.
  rewrite Ztrunc_floor by (apply Rmult_le_pos; lra).
  pose proof (Zfloor_ub ((1 + p * g * a * a1) * b)) as F. set (s := IZR (Zfloor ((1 + p * g * a * a1) * b))) in *. clearbody s.
  assert (gab : 1 - 3003 / 1000 * u24 <= g * a * a1 * b).
  { assert (X1 : 1 - 20011 / 10000 * u24 <= g * a) by nra. assert (X2 : 1 - 3002 / 1000 * u24 <= g * a * a1) by nra. nra. }
  assert (X : (1 + p * g * a * a1) * b >= 1 - u53 + p * (1 - 3003 / 1000 * u24)).
  { replace ((1 + p * g * a * a1) * b) with (b + p * (g * a * a1 * b)) by ring. assert (p * (1 - 3003 / 1000 * u24) <= p * (g * a * a1 * b)) by (apply Rmult_le_compat_l; lra). lra. }
  assert (Y : p * u24 <= / 16). { apply Rle_trans with (2 ^ 20 * u24); [apply Rmult_le_compat_r; lra|]. unfold u24. lra. }
  lra.
Qed.
Lemma signed_not_reached wid n h x i : added wid -> (1 <= n < 2 ^ 24)%Z -> 0 < h -> IZR n * (VisModel.gamma2 * h) <= 2 ^ 20 -> Rabs (IZR n * x) <= 2 ^ 30 ->
  let c := cell_of rounded (double rounded (of_int rounded n)) x in
  let s := signed_span wid n h in ~ (c - s <= i <= c + s)%Z -> VisModel.gamma2 * h <= Rabs (centre n i - x).
Proof.
  intros Hw Hn Hh B Bx. cbv zeta. pose proof (cell_bounds n x Bx) as C. pose proof (signed_span_bounds wid n h Hw Hn Hh B) as S'.
  set (c := cell_of rounded _ x) in *. set (s := signed_span _ _ _) in *. clearbody c s. intro O.
  assert (N : 0 < IZR n) by (apply IZR_lt; lia). assert (HH : 0 < VisModel.gamma2 * h) by (unfold VisModel.gamma2; lra).
  set (H := VisModel.gamma2 * h) in *. clearbody H. assert (NH : 0 < IZR n * H) by (apply Rmult_lt_0_compat; assumption).
  assert (E : IZR n * (centre n i - x) = IZR i + / 2 - IZR n * x) by (unfold centre; field; lra).
  assert (K : IZR n * H <= Rabs (IZR n * (centre n i - x))).
  { rewrite E. assert (O' : (i <= c - s - 1)%Z \/ (c + s + 1 <= i)%Z) by lia. destruct O' as [O'|O']; apply IZR_le in O'.
    - rewrite !minus_IZR in O'. rewrite Rabs_left1; lra.
    - rewrite !plus_IZR in O'. rewrite Rabs_pos_eq; lra. }
  rewrite Rabs_mult, (Rabs_pos_eq (IZR n)) in K by lra. apply Rmult_le_reg_l with (IZR n); assumption.
Qed.
(** As [resolved], with radii up to 2^20 pixels. *)
Definition seen (n : Z) (k : copy) : Prop :=
  0 < k_h k /\ 5 / 4 <= IZR n * (VisModel.gamma2 * k_h k) <= 2 ^ 20 /\ Rabs (IZR n * k_x k) <= 2 ^ 30 /\ Rabs (IZR n * k_y k) <= 2 ^ 30.

Definition signed_writes (wid out : R -> R) (n : Z) (k : copy) : list (list Z * R) := signed_at rounded wid out n (k_m k) (k_h k) (k_x k) (k_y k).
Lemma signed_near wid out n i j k : added wid -> added out -> (1 <= n < 2 ^ 24)%Z -> (0 <= i < n)%Z -> (0 <= j < n)%Z -> seen n k ->
  near [i; j] (signed_writes wid out n k) (exact_of n i j k) (signed_error k).
Proof.
  intros Hw Ho Hn Hi Hj (Hh & B & Bx & By). assert (W : (1 < signed_span wid n (k_h k))%Z) by (apply lt_IZR; pose proof (signed_span_bounds wid n (k_h k) Hw Hn Hh (proj2 B)); lra).
  pose proof (signed_not_reached wid n (k_h k) (k_x k) i Hw Hn Hh (proj2 B) Bx) as Nx. pose proof (signed_not_reached wid n (k_h k) (k_y k) j Hw Hn Hh (proj2 B) By) as Ny. cbv zeta in Nx, Ny.
  pose proof (signed_value wid out n i j k Hw Ho Hn Hi Hj Hh) as V. cbv zeta in V.
  unfold signed_writes, signed_at. cbv zeta. fold (signed_span wid n (k_h k)). set (s := signed_span wid n (k_h k)) in *. set (cx := cell_of rounded _ (k_x k)) in *. set (cy := cell_of rounded _ (k_y k)) in *.
  assert (HH : 0 < VisModel.gamma2 * k_h k) by (unfold VisModel.gamma2; lra).
  assert (Z0 : ~ (cx - s <= i <= cx + s /\ cy - s <= j <= cy + s)%Z -> Rabs (exact_of n i j k) <= signed_error k).
  { intro O. unfold exact_of, exact_value. cbv zeta. rewrite kernel2_outside; [rewrite Rmult_0_r, Rabs_R0; apply signed_error_pos, Hh|exact HH|].
    destruct (far_axis (centre n i - k_x k) (centre n j - k_y k)) as [X Y].
    assert (O' : ~ (cx - s <= i <= cx + s)%Z \/ ~ (cy - s <= j <= cy + s)%Z) by lia. destruct O' as [O'|O']; [specialize (Nx O')|specialize (Ny O')]; lra. }
  destruct (outside n cx s || outside n cy s) eqn:Out.
  - apply near_none; [reflexivity|]. apply Z0. unfold outside in Out. rewrite !orb_true_iff, !Z.ltb_lt in Out. lia.
  - destruct (s <=? 1)%Z eqn:L; [apply Z.leb_le in L; lia|].
    destruct (in_dec Z.eq_dec i (span_range n (cx - s) (cx + s + 1))) as [I|I]; [destruct (in_dec Z.eq_dec j (span_range n (cy - s) (cy + s + 1))) as [J|J]|].
    + eapply near_value; [|exact V]. intro g. rewrite summed_over by (unfold span_range; apply NoDup_zrange).
      destruct (in_dec Z.eq_dec i _); [|contradiction]. destruct (in_dec Z.eq_dec j _); [reflexivity|contradiction].
    + apply near_none; [|apply Z0; unfold span_range in J; rewrite In_zrange in J; lia]. intro g. rewrite summed_over by (unfold span_range; apply NoDup_zrange).
      destruct (in_dec Z.eq_dec i _); [|contradiction]. destruct (in_dec Z.eq_dec j _); [contradiction|reflexivity].
    + apply near_none; [|apply Z0; unfold span_range in I; rewrite In_zrange in I; lia]. intro g. rewrite summed_over by (unfold span_range; apply NoDup_zrange).
      destruct (in_dec Z.eq_dec i _); [contradiction|reflexivity].
Qed.

(** With exact numbers it is the loop of RoundModel.v. *)
Theorem C143_compiled_exact : forall n m h x y, signed_at RoundExactTheorems.exact (fun v => v) (fun v => v) n m h x y = fast_at RoundExactTheorems.exact n m h x y
  /\ signed_at RoundExactTheorems.exact (single RoundExactTheorems.exact) (single RoundExactTheorems.exact) n m h x y = fast_at RoundExactTheorems.exact n m h x y.
Proof. intros. split; reflexivity. Qed.

(** Every pixel of a copy, written or not, with a compiled kernel. *)
Theorem C143_compiled : forall wid out n i j k, added wid -> added out -> (1 <= n < 2 ^ 24)%Z -> (0 <= i < n)%Z -> (0 <= j < n)%Z -> seen n k ->
  Rabs (summed (fun v => v) [i; j] (signed_writes wid out n k) - exact_of n i j k) <= signed_error k.
Proof. intros. now apply signed_near. Qed.

Lemma signed_turns wid out n bx by_ ps : flat_map (signed_part rounded wid out n bx by_) ps = flat_map (fun t => signed_writes wid out n (copy_at bx by_ t)) (turns bx by_ ps).
Proof.
  unfold turns. induction ps as [|p ps IH]; [reflexivity|]. cbn [flat_map]. rewrite flat_map_app, <- IH. apply (f_equal2 (@app _)); [|reflexivity]. clear IH.
  unfold signed_part, copies2. induction (shifts rounded bx) as [|sx l IH]; [reflexivity|]. cbn [flat_map]. rewrite flat_map_app, <- IH. apply (f_equal2 (@app _)); [|reflexivity]. clear IH.
  induction (shifts rounded by_) as [|sy l' IH]; [reflexivity|]. cbn [flat_map map]. apply (f_equal2 (@app _)); [reflexivity|exact IH].
Qed.
Theorem C143_compiled_image : forall wid out store u n bx by_ ps threads groups i j, added wid -> added out -> stored store u -> (1 <= threads)%Z -> Permutation (concat groups) (zrange 0 threads) ->
  (1 <= n < 2 ^ 24)%Z -> (0 <= i < n)%Z -> (0 <= j < n)%Z ->
  let ts := turns bx by_ ps in Forall (seen n) (copies bx by_ ps) ->
  let ex t := exact_of n i j (image_at bx by_ t) in
  let er t := signed_error (copy_at bx by_ t) + moved_error bx by_ t in
  Rabs (draw rounded store (flat_map (signed_part rounded wid out n bx by_) ps) [i; j] - sum ex ts)
  <= sum er ts + ((1 + u) ^ length ts - 1) * sum (fun t => Rabs (ex t) + er t) ts
  /\ Rabs (parallel rounded store (signed_part rounded wid out n bx by_) ps threads groups [i; j] - sum ex ts)
  <= sum er ts + ((1 + u) ^ (length ts + Z.to_nat threads + length groups) - 1) * sum (fun t => Rabs (ex t) + er t) ts.
Proof.
  intros wid out store u n bx by_ ps threads groups i j Hw Ho St T Pm Hn Hi Hj ts F ex er.
  assert (N : Forall (fun t => near [i; j] (signed_writes wid out n (copy_at bx by_ t)) (ex t) (er t)) ts).
  { rewrite copies_turns in F. rewrite Forall_map in F. eapply Forall_impl; [|exact F]. cbn beta. intros t Rt. eapply near_moved; [apply signed_near; assumption|].
    apply moved. apply Rt. }
  split.
  - rewrite signed_turns. fold ts. apply image_close; assumption.
  - apply (parallel_image store u _ ps threads groups [i; j] (fun t => signed_writes wid out n (copy_at bx by_ t)) ex er ts St T Pm); [|exact N]. apply signed_turns.
Qed.

(** The threads of the GPU, in whatever order they add to the image: each does one copy of one particle. *)
Definition thread_copy (bx by_ : R) (p : rpart rounded) (dx dy : Z) : copy :=
  mk_copy (r_m p) (r_h p) (add rounded (r_x p) (mul rounded (sub rounded (of_int rounded dx) (one rounded)) bx))
                          (add rounded (r_y p) (mul rounded (sub rounded (of_int rounded dy) (one rounded)) by_)).
Definition threads_copies (bx by_ : R) (ps : list (rpart rounded)) (ts : list (Z * Z * Z)) : list copy :=
  flat_map (fun '(i, dx, dy) => match nth_error ps (Z.to_nat i) with None => [] | Some p => [thread_copy bx by_ p dx dy] end) ts.
Theorem C143_gpu : forall n bx by_ ps ts i j, (1 <= n < 2 ^ 24)%Z -> (0 <= i < n)%Z -> (0 <= j < n)%Z ->
  let ks := threads_copies bx by_ ps ts in Forall (seen n) ks ->
  Rabs (draw rounded (single rounded) (flat_map (signed_thread rounded (single rounded) (single rounded) n bx by_ ps) ts) [i; j] - sum (exact_of n i j) ks)
  <= sum signed_error ks + ((1 + (eps 24 + eps 53 + eps 24 * eps 53)) ^ length ks - 1) * sum (fun k => Rabs (exact_of n i j k) + signed_error k) ks.
Proof.
  intros n bx by_ ps ts i j Hn Hi Hj ks F.
  replace (flat_map (signed_thread rounded (single rounded) (single rounded) n bx by_ ps) ts) with (flat_map (signed_writes (single rounded) (single rounded) n) ks).
  - apply image_close; [exact stored_single|]. eapply Forall_impl; [|exact F]. intros k Hk. apply signed_near; try assumption; exact added_single.
  - unfold ks, threads_copies. clear. induction ts as [|[[a dx] dy] ts IH]; [reflexivity|]. cbn [flat_map]. rewrite flat_map_app, IH. apply (f_equal2 (@app _)); [|reflexivity].
    unfold signed_thread. destruct (nth_error ps (Z.to_nat a)); [|reflexivity]. cbn [flat_map]. apply app_nil_r.
Qed.

(** The same with the exact positions, and what a launch of gpu.py 262-281 covers: with [count] threads for at least as many
    particles, in any order, each copy of each particle that fast.py draws once and nothing else. *)
Definition thread_turns (ps : list (rpart rounded)) (ts : list (Z * Z * Z)) : list (rpart rounded * Z * Z) :=
  flat_map (fun '(i, dx, dy) => match nth_error ps (Z.to_nat i) with None => [] | Some p => [(p, dx - 1, dy - 1)%Z] end) ts.
Definition thread_small (t : Z * Z * Z) : Prop := let '(i, dx, dy) := t in (0 <= dx < 2 ^ 52)%Z /\ (0 <= dy < 2 ^ 52)%Z.
Lemma less_one d : (0 <= d < 2 ^ 52)%Z -> sub rounded (of_int rounded d) (one rounded) = of_int rounded (d - 1).
Proof.
  intro H. unfold one. cbn [rounded sub of_int lit]. unfold rnd2. rewrite lit_1, <- minus_IZR.
  match goal with |- ?a = ?b => first [reflexivity | apply rnd_id, int_format; lia] end.
Qed.
Lemma threads_turns bx by_ ps ts : Forall thread_small ts -> threads_copies bx by_ ps ts = map (copy_at bx by_) (thread_turns ps ts).
Proof.
  unfold threads_copies, thread_turns. induction 1 as [|[[a dx] dy] ts [Hx Hy] _ IH]; [reflexivity|]. cbn [flat_map]. rewrite map_app, <- IH. apply (f_equal2 (@app _)); [|reflexivity].
  destruct (nth_error ps (Z.to_nat a)); [|reflexivity]. cbn [map copy_at]. unfold thread_copy, shifted. now rewrite !less_one by assumption.
Qed.
Theorem C143_gpu_periodic : forall n bx by_ ps ts i j, (1 <= n < 2 ^ 24)%Z -> (0 <= i < n)%Z -> (0 <= j < n)%Z -> Forall thread_small ts ->
  let ks := thread_turns ps ts in Forall (fun t => seen n (copy_at bx by_ t)) ks ->
  let ex t := exact_of n i j (image_at bx by_ t) in
  let er t := signed_error (copy_at bx by_ t) + moved_error bx by_ t in
  Rabs (draw rounded (single rounded) (flat_map (signed_thread rounded (single rounded) (single rounded) n bx by_ ps) ts) [i; j] - sum ex ks)
  <= sum er ks + ((1 + (eps 24 + eps 53 + eps 24 * eps 53)) ^ length ks - 1) * sum (fun t => Rabs (ex t) + er t) ks.
Proof.
  intros n bx by_ ps ts i j Hn Hi Hj Sm ks F ex er.
  replace (flat_map (signed_thread rounded (single rounded) (single rounded) n bx by_ ps) ts)
    with (flat_map (fun t => signed_writes (single rounded) (single rounded) n (copy_at bx by_ t)) ks).
  - apply image_close; [exact stored_single|]. eapply Forall_impl; [|exact F]. cbn beta. intros t Rt.
    eapply near_moved; [apply signed_near; try assumption; exact added_single|]. apply moved. apply Rt.
  - unfold ks, thread_turns. clear F ex er. clear ks. induction Sm as [|[[a dx] dy] ts [Hx Hy] _ IH]; [reflexivity|]. cbn [flat_map]. rewrite flat_map_app, IH. apply (f_equal2 (@app _)); [|reflexivity].
    unfold signed_thread. destruct (nth_error ps (Z.to_nat a)); [|reflexivity]. cbn [flat_map copy_at]. rewrite app_nil_r. unfold signed_writes, shifted. cbn [k_m k_h k_x k_y]. now rewrite !less_one by assumption.
Qed.

(** A box of length zero is one without copies. *)
Definition tiled (box : R) : Prop := box = 0 \/ (Z.abs (Zceil (rnd 53 (1 / box))) < 2 ^ 50)%Z.
Lemma launch_shifts box : tiled box ->
  map (fun d => IZR (d - 1) * box) (zrange 0 (launch_copies rounded box)) = map (fun k => IZR k * box) (shifts rounded box) /\ (launch_copies rounded box < 2 ^ 52)%Z.
Proof.
  intros B. unfold launch_copies, shifts, zero, one. cbn [rounded equal lit ceil int div add of_int]. rewrite !lit_1. unfold rnd2.
  replace (Q2R 0) with 0 by (unfold Q2R; cbn; lra). rewrite ?rnd_0. destruct (Req_EM_T box 0) as [->|N].
  - split; [change (zrange 0 1) with [0%Z]; cbn [map]; rewrite !Rmult_0_r; reflexivity|lia].
  - destruct B as [B|B]; [contradiction|].
    set (c := Zceil (rnd 53 (1 / box))) in *. rewrite <- !plus_IZR. rewrite (rnd_id (IZR (c + 1))), (rnd_id (IZR (c + 2))) by (apply int_format; lia). rewrite !Ztrunc_IZR.
    split; [|lia]. unfold zrange. rewrite !map_map. replace (c + 1 - -1)%Z with (c + 2 - 0)%Z by lia. apply map_ext. intro a. do 2 f_equal. lia.
Qed.
Lemma map_nth_all {A} (ps : list A) : forall k, flat_map (fun i => match nth_error ps (i - k) with None => [] | Some p => [p] end) (seq k (length ps)) = ps.
Proof.
  induction ps as [|p ps IH]; intro k; [reflexivity|]. cbn [length seq flat_map]. rewrite Nat.sub_diag. cbn [nth_error app]. f_equal. rewrite <- (IH (S k)) at 2.
  rewrite !flat_map_concat_map. f_equal. apply map_ext_in. intros i I. apply in_seq in I. replace (i - k)%nat with (S (i - S k)) by lia. reflexivity.
Qed.
Definition displaced (us vs : list R) (p : rpart rounded) : list copy := flat_map (fun u => map (fun v => mk_copy (r_m p) (r_h p) (r_x p + u) (r_y p + v)) vs) us.
Lemma turns_displaced bx by_ ps : map (image_at bx by_) (turns bx by_ ps)
  = flat_map (displaced (map (fun k => IZR k * bx) (shifts rounded bx)) (map (fun k => IZR k * by_) (shifts rounded by_))) ps.
Proof.
  unfold turns. generalize (shifts rounded bx) as lx. generalize (shifts rounded by_) as ly. intros ly lx. induction ps as [|p ps IH]; [reflexivity|]. cbn [flat_map]. rewrite map_app, IH. apply (f_equal2 (@app _)); [|reflexivity]. clear IH.
  unfold displaced. induction lx as [|x lx IH]; [reflexivity|]. cbn [flat_map map]. rewrite map_app, IH. apply (f_equal2 (@app _)); [|reflexivity]. rewrite !map_map. reflexivity.
Qed.
Lemma threads_displaced bx by_ ps lx ly l :
  map (image_at bx by_) (thread_turns ps (flat_map (fun i => flat_map (fun dx => map (fun dy => (i, dx, dy)) ly) lx) (map Z.of_nat l)))
  = flat_map (displaced (map (fun d => IZR (d - 1) * bx) lx) (map (fun d => IZR (d - 1) * by_) ly)) (flat_map (fun i => match nth_error ps (i - 0) with None => [] | Some p => [p] end) l).
Proof.
  unfold thread_turns. induction l as [|a l IH]; [reflexivity|]. cbn [flat_map map]. rewrite !flat_map_app, map_app, IH. apply (f_equal2 (@app _)); [|reflexivity]. clear IH.
  rewrite Nat.sub_0_r. destruct (nth_error ps a) as [p|] eqn:E; cbn [flat_map]; rewrite ?app_nil_r.
  - unfold displaced. induction lx as [|x lx IH]; [reflexivity|]. cbn [flat_map map]. rewrite flat_map_app, map_app, IH. apply (f_equal2 (@app _)); [|reflexivity]. clear IH.
    induction ly as [|y ly IH]; [reflexivity|]. cbn [flat_map map]. rewrite Nat2Z.id, E. cbn [app map image_at]. f_equal. exact IH.
  - induction lx as [|x lx IH]; [reflexivity|]. cbn [flat_map map]. rewrite flat_map_app, map_app, IH, app_nil_r. clear IH.
    induction ly as [|y ly IH]; [reflexivity|]. cbn [flat_map map]. rewrite Nat2Z.id, E. exact IH.
Qed.
Theorem C143_launch : forall bx by_ ps count ts, tiled bx -> tiled by_ -> (Z.of_nat (length ps) <= count)%Z -> Permutation ts (launch rounded bx by_ count) ->
  Forall thread_small ts /\ Permutation (map (image_at bx by_) (thread_turns ps ts)) (map (image_at bx by_) (turns bx by_ ps)).
Proof.
  intros bx by_ ps count ts Tx Ty C P. destruct (launch_shifts bx Tx) as [Sx Bx]. destruct (launch_shifts by_ Ty) as [Sy By].
  split.
  - eapply Permutation_Forall; [apply Permutation_sym; exact P|]. apply Forall_forall. intros [[i dx] dy] I. unfold launch in I. apply in_flat_map in I. destruct I as (i' & _ & I).
    apply in_flat_map in I. destruct I as (dx' & Ix & I). apply in_map_iff in I. destruct I as (dy' & E & Iy). inversion E; subst. rewrite In_zrange in Ix, Iy. split; lia.
  - eapply perm_trans; [apply Permutation_map, Permutation_flat_map; exact P|]. fold (thread_turns ps (launch rounded bx by_ count)).
    match goal with |- Permutation ?a ?b => replace a with b; [apply Permutation_refl|] end.
    rewrite turns_displaced, <- Sx, <- Sy. unfold launch.
    replace (zrange 0 count) with (map Z.of_nat (seq 0 (length ps) ++ seq (length ps) (Z.to_nat count - length ps))).
    2: { rewrite <- seq_app. unfold zrange. replace (length ps + (Z.to_nat count - length ps))%nat with (Z.to_nat (count - 0)) by lia. apply map_ext. intro. lia. }
    rewrite threads_displaced, flat_map_app, map_nth_all. f_equal.
    match goal with |- _ = _ ++ ?l => assert (Q : l = []) end; [|rewrite Q, app_nil_r; reflexivity].
    rewrite flat_map_concat_map. apply concat_nil_Forall, Forall_map, Forall_forall. intros i I. apply in_seq in I. rewrite Nat.sub_0_r, (proj2 (nth_error_None ps i)) by lia. reflexivity.
Qed.
Theorem C143_launch_case : tiled 1 /\ launch_copies rounded 1 = 3%Z /\ length (launch rounded 1 1 16) = 144%nat /\ tiled 0 /\ launch_copies rounded 0 = 1%Z.
Proof.
  assert (T : Zceil (rnd 53 (1 / 1)) = 1%Z) by (replace (1 / 1) with 1 by lra; rewrite rnd_1; apply (Zceil_IZR 1)).
  assert (Q0 : rnd 53 (Q2R 0) = 0) by (replace (Q2R 0) with 0 by (unfold Q2R; cbn; lra); apply rnd_0).
  assert (L : launch_copies rounded 1 = 3%Z).
  { unfold launch_copies, zero, one. cbn [rounded equal lit ceil int div add of_int]. rewrite !lit_1, Q0. unfold rnd2. destruct (Req_EM_T 1 0); [lra|]. rewrite T, <- plus_IZR, rnd_id by (apply int_format; lia). now rewrite Ztrunc_IZR. }
  split; [right; rewrite T; lia|]. split; [exact L|]. split; [unfold launch; rewrite L; reflexivity|]. split; [now left|].
  unfold launch_copies, zero. cbn [rounded equal lit]. rewrite Q0. destruct (Req_EM_T 0 0); [reflexivity|contradiction].
Qed.

(** A thread with a particle and one without, and two workers that take their turns backwards. *)
Theorem C143_gpu_case : threads_copies 0 0 [@mk_rpart rounded (1 / 2) (1 / 2) 0 1 (1 / 2)] [(0, 1, 1)%Z; (1, 1, 1)%Z] = [mk_copy 1 (1 / 2) (1 / 2) (1 / 2)]
  /\ seen 4 (mk_copy 1 (1 / 2) (1 / 2) (1 / 2)) /\ Permutation (concat [[1%Z]; [0%Z]]) (zrange 0 2)
  /\ added (fun v => v) /\ added (single rounded).
Proof.
  split; [|split; [|split; [|split; [exact added_id|exact added_single]]]].
  - unfold threads_copies, thread_copy. cbn [flat_map nth_error Z.to_nat app r_m r_h r_x r_y Pos.to_nat Pos.iter_op Nat.add]. unfold one. cbn [rounded add mul sub of_int lit]. rewrite lit_1. unfold rnd2.
    rewrite Rmult_0_r, rnd_0, Rplus_0_r. rewrite (rnd_id (1 / 2)); [reflexivity|]. replace (1 / 2) with (bpow radix2 (-1)) by (cbn; lra). apply generic_format_bpow. unfold FLX_exp. lia.
  - unfold seen, VisModel.gamma2. cbn [k_h k_x k_y]. rewrite Rabs_pos_eq by lra. repeat split; lra.
  - apply perm_swap.
Qed.

Print Assumptions C143_compiled_exact.
Print Assumptions C143_compiled.
Print Assumptions C143_compiled_image.
Print Assumptions C143_gpu.
Print Assumptions C143_gpu_case.
Print Assumptions C143_gpu_periodic.
Print Assumptions C143_launch.
Print Assumptions C143_launch_case.

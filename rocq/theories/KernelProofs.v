(** Integrals of polynomials, bounds of pi, and the kernels. *)
From Coq Require Import Reals Machin Lra Lia.
From Verif Require Import VisModel VisSpec VisProofs KernelSpec.
Local Open Scope R_scope.

(** * Integrals *)

Lemma integral_of_derivative : forall F f a b, (forall x, derivable_pt_lim F x (f x)) -> continuity f -> a <= b ->
  integral f a b (F b - F a).
Proof.
  intros F f a b D C L.
  assert (dF : derivable F). { intro x. exists (f x). apply D. }
  assert (E : forall x, derive F dF x = f x).
  { intro x. unfold derive. apply derive_pt_eq_0. apply D. }
  assert (C' : continuity (derive F dF)).
  { intro x. apply (continuity_pt_locally_ext f (derive F dF) 1 x); [lra|intros y _; symmetry; apply E|apply C]. }
  pose (G := @mkC1 F dF C').
  assert (pr : Riemann_integrable (derive F dF) a b).
  { apply continuity_implies_RiemannInt; [exact L|]. intros x _. apply C'. }
  assert (pr' : Riemann_integrable f a b).
  { refine (@Riemann_integrable_ext (derive F dF) f a b _ pr). intros x _. apply E. }
  exists pr'. change (F b - F a) with (G b - G a). rewrite <- (@FTC_Riemann G a b pr). apply RiemannInt_P18; [exact L|]. intros x _. symmetry. apply E.
Qed.

Lemma integral_ext : forall f g a b v, a <= b -> (forall x, a <= x <= b -> f x = g x) -> integral f a b v -> integral g a b v.
Proof.
  intros f g a b v L E (pr & V).
  assert (pr' : Riemann_integrable g a b).
  { refine (@Riemann_integrable_ext f g a b _ pr). intros x Hx. rewrite Rmin_left, Rmax_right in Hx by exact L. apply E. exact Hx. }
  exists pr'. rewrite <- V. apply RiemannInt_P18; [exact L|]. intros x Hx. symmetry. apply E. lra.
Qed.

Lemma integral_unique : forall f a b v w, integral f a b v -> integral f a b w -> v = w.
Proof. intros f a b v w (p & <-) (q & <-). apply RiemannInt_P5. Qed.

Lemma integral_zero : forall a b, a <= b -> integral (fun _ => 0) a b 0.
Proof.
  intros a b L. pose proof (integral_of_derivative (fun _ => 0) (fun _ => 0) a b) as K. cbv beta in K. rewrite Rminus_0_r in K.
  apply K; [|apply continuity_const; intros ? ?; reflexivity|exact L]. intro x. apply derivable_pt_lim_const.
Qed.

Lemma integral_join : forall f a b c v w, a <= b -> b <= c -> integral f a b v -> integral f b c w -> integral f a c (v + w).
Proof.
  intros f a b c v w L1 L2 (p & <-) (q & <-). pose (pr := RiemannInt_P24 p q). exists pr. symmetry. apply RiemannInt_P26.
Qed.

(** A function that is zero from [b] on. *)
Lemma integral_extend : forall f a b c v, a <= b -> b <= c -> (forall x, b <= x -> f x = 0) -> integral f a b v -> integral f a c v.
Proof.
  intros f a b c v L1 L2 Z I. replace v with (v + 0) by ring. apply (integral_join f a b c); auto.
  apply (integral_ext (fun _ => 0)); [exact L2| |apply integral_zero; exact L2]. intros x Hx. symmetry. apply Z. lra.
Qed.

(** * The number pi *)

Lemma PI_bounds : 3.14159265358979323846 < PI < 3.14159265358979323847.
Proof.
  pose proof (PI_2_3_7_ineq 11) as (A & B). unfold PI_2_3_7_tg, Ratan_seq, tg_alt in *.
  cbn [sum_f_R0 Nat.mul Nat.add pow INR] in A, B. lra.
Qed.

(** * Moments of the kernel *)

Lemma term_derivative : forall n c x, derivable_pt_lim (fun y => c * (y ^ S n / INR (S n))) x (c * x ^ n).
Proof.
  intros n c x. apply derivable_pt_lim_scal. unfold Rdiv.
  replace (x ^ n) with ((INR (S n) * x ^ n) * / INR (S n)).
  - apply (derivable_pt_lim_ext (fun y => / INR (S n) * y ^ S n)); [intro y; ring|].
    rewrite Rmult_comm. apply derivable_pt_lim_scal. apply (derivable_pt_lim_pow x (S n)).
  - field. apply not_0_INR. discriminate.
Qed.

Definition moment (k : nat) : R :=
  / INR (S k) - 10 / INR (S (k + 2)) + 20 / INR (S (k + 3)) - 15 / INR (S (k + 4)) + 4 / INR (S (k + 5)).

Lemma wendland_poly : forall r H, 0 < H -> 0 <= r <= H ->
  wendland r H = 1 - 10 * (r / H) ^ 2 + 20 * (r / H) ^ 3 - 15 * (r / H) ^ 4 + 4 * (r / H) ^ 5.
Proof.
  intros r H Hp Hr. unfold wendland. destruct (Rlt_dec r H) as [L|L]; [ring|].
  assert (r = H) by lra. subst r. replace (H / H) with 1 by (field; lra). ring.
Qed.

Lemma wendland_moment : forall k a H, 0 < H -> integral (fun r => a * (r ^ k * wendland r H)) 0 H (a * (H ^ S k * moment k)).
Proof.
  intros k a H Hp.
  pose (F := fun y => a * (y ^ S k / INR (S k)) + (- (10 * a / H ^ 2)) * (y ^ S (k + 2) / INR (S (k + 2)))
     + (20 * a / H ^ 3) * (y ^ S (k + 3) / INR (S (k + 3))) + (- (15 * a / H ^ 4)) * (y ^ S (k + 4) / INR (S (k + 4)))
     + (4 * a / H ^ 5) * (y ^ S (k + 5) / INR (S (k + 5)))).
  pose (f := fun y => a * y ^ k + (- (10 * a / H ^ 2)) * y ^ (k + 2) + (20 * a / H ^ 3) * y ^ (k + 3)
     + (- (15 * a / H ^ 4)) * y ^ (k + 4) + (4 * a / H ^ 5) * y ^ (k + 5)).
  assert (D : forall x, derivable_pt_lim F x (f x)).
  { intro x. unfold F, f. repeat apply derivable_pt_lim_plus; apply term_derivative. }
  assert (C : continuity f).
  { unfold f. intro x. apply derivable_continuous_pt. unfold derivable_pt, derivable_pt_abs.
    eexists. repeat apply derivable_pt_lim_plus; apply derivable_pt_lim_scal; apply derivable_pt_lim_pow. }
  replace (a * (H ^ S k * moment k)) with (F H - F 0).
  - apply (integral_ext f); [lra| |apply integral_of_derivative; [exact D|exact C|lra]].
    intros x Hx. rewrite wendland_poly by assumption. unfold f. rewrite !pow_add. field. lra.
  - unfold F, moment. rewrite !pow_i by lia. cbn [pow]. rewrite !pow_add.
    assert (N : forall n, INR (S n) <> 0) by (intro; apply not_0_INR; discriminate).
    field. repeat split; try apply N; lra.
Qed.

Lemma kernel2_moment : forall k a H, 0 < H ->
  integral (fun r => a * (r ^ k * kernel2 r H)) 0 H (a * constant2 / H ^ 2 * (H ^ S k * moment k)).
Proof.
  intros k a H Hp. apply (integral_ext (fun r => a * constant2 / H ^ 2 * (r ^ k * wendland r H))); [lra| |apply wendland_moment; exact Hp].
  intros x Hx. rewrite kernel2_W2 by lra. unfold W2, constant2. field. lra.
Qed.

Lemma kernel3_moment : forall k a H, 0 < H ->
  integral (fun r => a * (r ^ k * kernel3 r H)) 0 H (a * constant3 / H ^ 3 * (H ^ S k * moment k)).
Proof.
  intros k a H Hp. apply (integral_ext (fun r => a * constant3 / H ^ 3 * (r ^ k * wendland r H))); [lra| |apply wendland_moment; exact Hp].
  intros x Hx. rewrite kernel3_W3 by lra. unfold W3, constant3. field. lra.
Qed.

(** * Shape *)

Lemma wendland_zero : forall r H, H <= r -> wendland r H = 0.
Proof. intros r H L. unfold wendland. destruct (Rlt_dec r H); [lra|reflexivity]. Qed.

Lemma ratio_bounds : forall r H, 0 < H -> 0 <= r -> r < H -> 0 <= r / H < 1.
Proof.
  intros r H Hp Hr L. split.
  - apply Rmult_le_pos; [exact Hr|]. left. apply Rinv_0_lt_compat. exact Hp.
  - apply (Rmult_lt_reg_r H); [exact Hp|]. unfold Rdiv. rewrite Rmult_assoc, Rinv_l, Rmult_1_r, Rmult_1_l by lra. exact L.
Qed.

Lemma wendland_decreasing : forall r s H, 0 < H -> 0 <= r -> r < s -> r < H -> wendland s H < wendland r H.
Proof.
  intros r s H Hp Hr Hs Hl. unfold wendland at 2. destruct (Rlt_dec r H) as [_|N]; [|lra].
  destruct (ratio_bounds r H Hp Hr Hl) as (A & B). set (q := r / H) in *.
  assert (P : forall t, 0 <= t < 1 -> 0 < (1 - t) ^ 4 * (1 + 4 * t)).
  { intros t Ht. apply Rmult_lt_0_compat; [apply pow_lt|]; lra. }
  unfold wendland. destruct (Rlt_dec s H) as [L|L]; [|apply P; lra].
  destruct (ratio_bounds s H Hp ltac:(lra) L) as (A' & B').
  assert (Q : q < s / H).
  { unfold q, Rdiv. apply Rmult_lt_compat_r; [apply Rinv_0_lt_compat; exact Hp|exact Hs]. }
  set (p := s / H) in *. clearbody p q. clear - A B A' B' Q.
  (* with u = 1 - p < v = 1 - q: u^4 (5 - 4u) < v^4 (5 - 4v) *)
  replace p with (1 - (1 - p)) by ring. replace q with (1 - (1 - q)) by ring. set (u := 1 - p) in *. set (v := 1 - q) in *.
  assert (U : 0 < u) by (unfold u; lra). assert (V : v <= 1) by (unfold v; lra). assert (UV : u < v) by (unfold u, v; lra).
  clearbody u v. clear A B A' B' Q.
  replace (1 - (1 - u)) with u by ring. replace (1 - (1 - v)) with v by ring.
  assert (E : v ^ 4 * (1 + 4 * (1 - v)) - u ^ 4 * (1 + 4 * (1 - u))
    = (v - u) * (5 * (v ^ 3 + v ^ 2 * u + v * u ^ 2 + u ^ 3) - 4 * (v ^ 4 + v ^ 3 * u + v ^ 2 * u ^ 2 + v * u ^ 3 + u ^ 4))) by ring.
  assert (G : 0 < 5 * (v ^ 3 + v ^ 2 * u + v * u ^ 2 + u ^ 3) - 4 * (v ^ 4 + v ^ 3 * u + v ^ 2 * u ^ 2 + v * u ^ 3 + u ^ 4)).
  { assert (V3 : 0 < v ^ 3) by (apply pow_lt; lra). assert (V2 : 0 < v ^ 2) by (apply pow_lt; lra).
    assert (U3 : 0 < u ^ 3) by (apply pow_lt; lra). assert (U2 : 0 < u ^ 2) by (apply pow_lt; lra).
    (* each term of the second sum is at most one of the first, and u^4 < u^3 <= all *)
    assert (T1 : v ^ 4 <= v ^ 3) by (replace (v ^ 4) with (v ^ 3 * v) by ring; nra).
    assert (T2 : v ^ 3 * u <= v ^ 2 * u) by (replace (v ^ 3 * u) with (v ^ 2 * u * v) by ring; assert (0 < v ^ 2 * u) by nra; nra).
    assert (T3 : v ^ 2 * u ^ 2 <= v * u ^ 2) by (replace (v ^ 2 * u ^ 2) with (v * u ^ 2 * v) by ring; assert (0 < v * u ^ 2) by nra; nra).
    assert (T4 : v * u ^ 3 <= u ^ 3) by nra.
    assert (T5 : u ^ 4 < u ^ 3) by (replace (u ^ 4) with (u ^ 3 * u) by ring; nra).
    assert (M1 : u ^ 3 <= v ^ 3) by (apply pow_incr; lra).
    assert (M2 : u ^ 3 <= v ^ 2 * u) by (replace (u ^ 3) with (u ^ 2 * u) by ring; apply Rmult_le_compat_r; [lra|apply pow_incr; lra]).
    assert (M3 : u ^ 3 <= v * u ^ 2) by (replace (u ^ 3) with (u * u ^ 2) by ring; apply Rmult_le_compat_r; lra).
    lra. }
  assert (0 < (v - u) * (5 * (v ^ 3 + v ^ 2 * u + v * u ^ 2 + u ^ 3) - 4 * (v ^ 4 + v ^ 3 * u + v ^ 2 * u ^ 2 + v * u ^ 3 + u ^ 4)))
    by (apply Rmult_lt_0_compat; lra).
  lra.
Qed.

Lemma wendland_flat : forall r H, 0 < H -> 0 <= r -> 1 - 10 * (r / H) ^ 2 <= wendland r H <= 1.
Proof.
  intros r H Hp Hr. destruct (Rlt_dec r H) as [L|L].
  - destruct (ratio_bounds r H Hp Hr L) as (A & B). rewrite wendland_poly by lra. set (q := r / H) in *. clearbody q.
    assert (Q2 : 0 <= q ^ 2) by (apply pow_le; exact A). assert (Q3 : 0 <= q ^ 3) by (apply pow_le; exact A).
    replace (q ^ 4) with (q ^ 3 * q) by ring. replace (q ^ 5) with (q ^ 3 * (q * q)) by ring.
    assert (K : 0 <= q ^ 3 * (20 - 15 * q + 4 * (q * q))) by (apply Rmult_le_pos; nra).
    assert (K' : 0 <= q ^ 2 * (10 - 20 * q + 15 * (q * q) - 4 * (q * q * q))).
    { apply Rmult_le_pos; [exact Q2|]. assert (0 <= (1 - q) * (1 - q) * (6 - 4 * q)) by (apply Rmult_le_pos; nra). nra. }
    nra.
  - rewrite wendland_zero by lra. split; [|lra].
    assert (1 <= r / H). { apply (Rmult_le_reg_r H); [exact Hp|]. unfold Rdiv. rewrite Rmult_assoc, Rinv_l by lra. lra. }
    nra.
Qed.

(** The slope of the kernel. *)
Definition slope (r H : R) : R := if Rlt_dec r H then - (20 * (r / H) * (1 - r / H) ^ 3) / H else 0.

Lemma wendland_derivative : forall r H, 0 < H -> derivable_pt_lim (fun x => wendland x H) r (slope r H).
Proof.
  intros r H Hp.
  assert (P : forall x, derivable_pt_lim (fun y => (1 - y / H) ^ 4 * (1 + 4 * (y / H))) x (- (20 * (x / H) * (1 - x / H) ^ 3) / H)).
  { intro x.
    apply (derivable_pt_lim_ext (fun y => 1 + (- (10 / H ^ 2)) * y ^ 2 + (20 / H ^ 3) * y ^ 3 + (- (15 / H ^ 4)) * y ^ 4 + (4 / H ^ 5) * y ^ 5)).
    - intro y. field. lra.
    - replace (- (20 * (x / H) * (1 - x / H) ^ 3) / H) with
        (0 + (- (10 / H ^ 2)) * (INR 2 * x ^ pred 2) + (20 / H ^ 3) * (INR 3 * x ^ pred 3) + (- (15 / H ^ 4)) * (INR 4 * x ^ pred 4)
         + (4 / H ^ 5) * (INR 5 * x ^ pred 5)) by (cbn [INR pred]; field; lra).
      repeat apply derivable_pt_lim_plus; [apply derivable_pt_lim_const|..]; apply derivable_pt_lim_scal; apply derivable_pt_lim_pow. }
  unfold slope. destruct (Rlt_dec r H) as [L|L].
  - intros eps E. destruct (P r eps E) as (d & D). 
    assert (M : 0 < Rmin d (H - r)) by (apply Rmin_pos; [apply cond_pos|lra]). exists (mkposreal _ M). intros h N Hh. cbn in Hh.
    pose proof (Rmin_l d (H - r)). pose proof (Rmin_r d (H - r)). pose proof (Rle_abs h).
    unfold wendland. destruct (Rlt_dec r H); [|lra]. destruct (Rlt_dec (r + h) H); [|lra]. apply D; [exact N|lra].
  - destruct (Req_dec r H) as [->|NE].
    + intros eps E. destruct (P H eps E) as (d & D). exists d. intros h N Hh. specialize (D h N Hh).
      replace (- (20 * (H / H) * (1 - H / H) ^ 3) / H) with 0 in D by (field; lra).
      unfold wendland. destruct (Rlt_dec H H); [lra|]. destruct (Rlt_dec (H + h) H) as [K|K].
      * replace ((1 - H / H) ^ 4 * (1 + 4 * (H / H))) with 0 in D by (field; lra). exact D.
      * replace ((0 - 0) / h - 0) with 0 by (field; exact N). rewrite Rabs_R0. exact E.
    + intros eps E. assert (M : 0 < r - H) by lra. exists (mkposreal _ M). intros h N Hh. cbn in Hh.
      apply Rabs_def2 in Hh. rewrite !wendland_zero by lra. replace ((0 - 0) / h - 0) with 0 by (field; exact N). rewrite Rabs_R0. exact E.
Qed.

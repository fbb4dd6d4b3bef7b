(** The kernels of the backends: C83 and C84. *)
From Coq Require Import Reals Lra Lia.
From Verif Require Import VisModel VisSpec VisProofs KernelSpec KernelProofs.
Local Open Scope R_scope.

(** * C83: a kernel holds one particle *)

(** Integrated over the plane the projected kernel gives one, but for the digits of 7 / 3.14159. *)
Theorem C83_plane : forall H top, 0 < H -> H <= top ->
  exists v, integral (in_rings (fun r => kernel2 r H)) 0 top v /\ 8 / 10 ^ 7 < v - 1 < 9 / 10 ^ 7.
Proof.
  intros H top Hp Ht. exists (2 * PI * constant2 / H ^ 2 * (H ^ 2 * moment 1)). split.
  - apply (integral_extend _ 0 H); [lra|exact Ht| |].
    + intros x Hx. unfold in_rings. rewrite kernel2_zero by assumption. ring.
    + apply (integral_ext (fun r => 2 * PI * (r ^ 1 * kernel2 r H))); [lra| |apply kernel2_moment; exact Hp].
      intros x _. unfold in_rings. ring.
  - replace (2 * PI * constant2 / H ^ 2 * (H ^ 2 * moment 1)) with (PI * (constant2 / 7))
      by (unfold moment; cbn [INR Nat.add]; field; lra).
    pose proof PI_bounds. unfold constant2. lra.
Qed.

(** Over space the kernel of slices and volumes gives one to twenty digits. *)
Theorem C83_space : forall H top, 0 < H -> H <= top ->
  exists v, integral (in_shells (fun r => kernel3 r H)) 0 top v /\ Rabs (v - 1) <= 1 / 10 ^ 20.
Proof.
  intros H top Hp Ht. exists (4 * PI * constant3 / H ^ 3 * (H ^ 3 * moment 2)). split.
  - apply (integral_extend _ 0 H); [lra|exact Ht| |].
    + intros x Hx. unfold in_shells. rewrite kernel3_zero by assumption. ring.
    + apply (integral_ext (fun r => 4 * PI * (r ^ 2 * kernel3 r H))); [lra| |apply kernel3_moment; exact Hp].
      intros x _. unfold in_shells. ring.
  - replace (4 * PI * constant3 / H ^ 3 * (H ^ 3 * moment 2)) with (PI * (constant3 * 2 / 21))
      by (unfold moment; cbn [INR Nat.add]; field; lra).
    pose proof PI_bounds. unfold constant3. apply Rabs_le. lra.
Qed.

(** Along the line of sight through the particle both kernels agree, if they have the same radius. *)
Theorem C83_centre : forall H, 0 < H ->
  exists v, integral (fun z => 2 * kernel3 z H) 0 H v /\ within (1 / 10 ^ 6) v (kernel2 0 H).
Proof.
  intros H Hp. exists (2 * constant3 / H ^ 3 * (H ^ 1 * moment 0)). split.
  - apply (integral_ext (fun r => 2 * (r ^ 0 * kernel3 r H))); [lra| |apply kernel3_moment; exact Hp]. intros x _. ring.
  - rewrite kernel2_W2 by lra. unfold W2, wendland. destruct (Rlt_dec 0 H) as [_|]; [|lra]. unfold within.
    replace (2 * constant3 / H ^ 3 * (H ^ 1 * moment 0)) with (2 * constant3 / 3 / H ^ 2)
      by (unfold moment; cbn [INR Nat.add]; field; lra).
    replace (222817109 / 100000000 / H ^ 2 * ((1 - 0 / H) ^ 4 * (1 + 4 * (0 / H)))) with (222817109 / 100000000 / H ^ 2) by (field; lra).
    assert (I : 0 < / H ^ 2) by (apply Rinv_0_lt_compat, pow_lt; exact Hp). unfold Rdiv in *.
    set (i := / H ^ 2) in *. clearbody i. rewrite (Rabs_pos_eq (222817109 * / 100000000 * i)) by lra.
    unfold constant3. apply Rabs_le. split; nra.
Qed.

(** A kernel of radius two: a little more than one particle. *)
Example C83_example : exists v, integral (in_rings (fun r => kernel2 r 2)) 0 3 v /\ 1 < v.
Proof. destruct (C83_plane 2 3) as (v & I & B); [lra|lra|]. exists v. split; [exact I|]. lra. Qed.

(** * C84: radius and shape *)

(** The radius of the kernel is such that the smoothing length is twice the standard deviation along
    one axis: in the plane, *)
Theorem C84_deviation_plane : forall p, 0 < p_h p ->
  exists v, integral (fun r => r ^ 2 / 2 * in_rings (fun r => kernel2 r (width2 p)) r) 0 (width2 p) v
  /\ within (2 / 10 ^ 6) v ((p_h p / 2) ^ 2).
Proof.
  intros p Hh. assert (Hp : 0 < width2 p) by (unfold width2; lra).
  exists (PI * constant2 / width2 p ^ 2 * (width2 p ^ 4 * moment 3)). split.
  - apply (integral_ext (fun r => PI * (r ^ 3 * kernel2 r (width2 p)))); [lra| |apply kernel2_moment; exact Hp].
    intros x _. unfold in_rings. field.
  - unfold within. replace (PI * constant2 / width2 p ^ 2 * (width2 p ^ 4 * moment 3)) with (PI * (constant2 * (5 / 504) * width2 p ^ 2))
      by (unfold moment; cbn [INR Nat.add]; field; lra).
    unfold width2. set (h := p_h p) in *. clearbody h. pose proof PI_bounds as B. set (q := PI) in *. clearbody q.
    assert (H2 : 0 < h ^ 2) by (apply pow_lt; exact Hh).
    replace ((h / 2) ^ 2) with (h ^ 2 / 4) by field. rewrite (Rabs_pos_eq (h ^ 2 / 4)) by lra.
    replace ((1897367 / 1000000 * h) ^ 2) with (1897367 / 1000000 * (1897367 / 1000000) * h ^ 2) by ring.
    set (s := h ^ 2) in *. clearbody s. unfold constant2. apply Rabs_le. split; nra.
Qed.

(** and in space. *)
Theorem C84_deviation_space : forall p, 0 < p_h p ->
  exists v, integral (fun r => r ^ 2 / 3 * in_shells (fun r => kernel3 r (width3 p)) r) 0 (width3 p) v
  /\ within (1 / 10 ^ 6) v ((p_h p / 2) ^ 2).
Proof.
  intros p Hh. assert (Hp : 0 < width3 p) by (unfold width3; lra).
  exists (4 / 3 * PI * constant3 / width3 p ^ 3 * (width3 p ^ 5 * moment 4)). split.
  - apply (integral_ext (fun r => 4 / 3 * PI * (r ^ 4 * kernel3 r (width3 p)))); [lra| |apply kernel3_moment; exact Hp].
    intros x _. unfold in_shells. field.
  - unfold within. replace (4 / 3 * PI * constant3 / width3 p ^ 3 * (width3 p ^ 5 * moment 4)) with (PI * (constant3 * (2 / 315) * width3 p ^ 2))
      by (unfold moment; cbn [INR Nat.add]; field; lra).
    unfold width3. set (h := p_h p) in *. clearbody h. pose proof PI_bounds as B. set (q := PI) in *. clearbody q.
    assert (H2 : 0 < h ^ 2) by (apply pow_lt; exact Hh).
    replace ((h / 2) ^ 2) with (h ^ 2 / 4) by field. rewrite (Rabs_pos_eq (h ^ 2 / 4)) by lra.
    replace ((1936492 / 1000000 * h) ^ 2) with (1936492 / 1000000 * (1936492 / 1000000) * h ^ 2) by ring.
    set (s := h ^ 2) in *. clearbody s. unfold constant3. apply Rabs_le. split; nra.
Qed.

(** Each radius of a backend is gamma times the smoothing length. *)
Theorem C84_radii : forall p, gamma2 * p_h p = width2 p /\ gamma3 * p_h p = width3 p.
Proof. intro p. split; reflexivity. Qed.

(** Hence the same particle is wider in volumes than in projections, by two percent. *)
Theorem C84_radii_refuted : forall p, 0 < p_h p -> width2 p < width3 p /\ within (21 / 1000) (width3 p) (width2 p).
Proof.
  intros p Hh. unfold width2, width3, within. rewrite !Rabs_pos_eq by lra. lra.
Qed.

(** The values fall with the distance, are zero from the radius on and positive before it. *)
Theorem C84_decreasing : forall r s H, 0 < H -> 0 <= r -> r < s ->
  (r < H -> kernel2 s H < kernel2 r H /\ kernel3 s H < kernel3 r H)
  /\ (H <= s -> kernel2 s H = 0 /\ kernel3 s H = 0).
Proof.
  intros r s H Hp Hr Hs. split.
  - intro L. rewrite !kernel2_W2, !kernel3_W3 by lra. pose proof (wendland_decreasing r s H Hp Hr Hs L) as D. unfold W2, W3.
    assert (0 < / H ^ 2) by (apply Rinv_0_lt_compat, pow_lt; exact Hp). assert (0 < / H ^ 3) by (apply Rinv_0_lt_compat, pow_lt; exact Hp).
    split; apply Rmult_lt_compat_l; try exact D; unfold Rdiv; apply Rmult_lt_0_compat; lra.
  - intro L. split; [apply kernel2_zero|apply kernel3_zero]; assumption.
Qed.

(** The kernel is flat at the particle. *)
Theorem C84_flat : forall r H, 0 < H -> 0 <= r ->
  (1 - 10 * (r / H) ^ 2) * kernel2 0 H <= kernel2 r H <= kernel2 0 H
  /\ (1 - 10 * (r / H) ^ 2) * kernel3 0 H <= kernel3 r H <= kernel3 0 H.
Proof.
  intros r H Hp Hr. rewrite !kernel2_W2, !kernel3_W3 by lra. unfold W2, W3.
  assert (Z : wendland 0 H = 1). { rewrite wendland_poly by lra. field. lra. }
  rewrite Z. pose proof (wendland_flat r H Hp Hr) as (A & B).
  assert (0 < / H ^ 2) by (apply Rinv_0_lt_compat, pow_lt; exact Hp). assert (0 < / H ^ 3) by (apply Rinv_0_lt_compat, pow_lt; exact Hp).
  unfold Rdiv in *. set (i := / H ^ 2) in *. set (j := / H ^ 3) in *. set (w := wendland r H) in *. clearbody i j w.
  repeat split; nra.
Qed.

(** It is smooth, also where it ends. *)
Theorem C84_smooth : forall r H, 0 < H -> 0 < r ->
  let d := if Rlt_dec r H then - (20 * (r / H) * (1 - r / H) ^ 3) / H else 0 in
  derivable_pt_lim (fun x => kernel2 x H) r (kernel2 0 H * d) /\ derivable_pt_lim (fun x => kernel3 x H) r (kernel3 0 H * d).
Proof.
  intros r H Hp Hr d. assert (Z : wendland 0 H = 1). { rewrite wendland_poly by lra. field. lra. }
  assert (G : forall k c, (forall x, 0 <= x -> k x = c * wendland x H) -> derivable_pt_lim k r (c * d)).
  { intros k c E eps P. pose proof (derivable_pt_lim_scal _ c r _ (wendland_derivative r H Hp)) as D. fold d in D.
    destruct (D eps P) as (e & De). assert (M : 0 < Rmin e r) by (apply Rmin_pos; [apply cond_pos|exact Hr]).
    exists (mkposreal _ M). intros h N Hh. cbn in Hh. pose proof (Rmin_l e r). pose proof (Rmin_r e r).
    assert (Q : Rabs h < r) by lra. apply Rabs_def2 in Q.
    rewrite (E r), (E (r + h)) by lra. apply De; [exact N|lra]. }
  rewrite kernel2_W2, kernel3_W3 by lra. unfold W2, W3. rewrite Z, !Rmult_1_r.
  split; apply G; intros x Hx; [rewrite kernel2_W2 by lra|rewrite kernel3_W3 by lra]; reflexivity.
Qed.

(** Only the ratio of distance and radius matters. *)
Theorem C84_scaling : forall r H c, 0 < H -> 0 <= r -> 0 < c ->
  kernel2 (c * r) (c * H) = kernel2 r H / c ^ 2 /\ kernel3 (c * r) (c * H) = kernel3 r H / c ^ 3.
Proof.
  intros r H c Hp Hr Hc. assert (0 <= c * r) by nra. assert (0 < c * H) by nra. rewrite !kernel2_W2, !kernel3_W3 by lra.
  assert (E : wendland (c * r) (c * H) = wendland r H).
  { unfold wendland. destruct (Rlt_dec (c * r) (c * H)) as [L|L], (Rlt_dec r H) as [M|M]; try (exfalso; nra); [|reflexivity].
    replace (c * r / (c * H)) with (r / H) by (field; lra). reflexivity. }
  unfold W2, W3. rewrite E. split; field; lra.
Qed.

Example C84_example : kernel2 0 2 < 1 /\ 1 < kernel2 0 1 /\ kernel2 1 1 = 0.
Proof.
  rewrite (kernel2_zero 1 1), !kernel2_W2 by lra. unfold W2. rewrite !wendland_poly by lra. repeat split; lra.
Qed.

Print Assumptions C83_plane.
Print Assumptions C83_space.
Print Assumptions C83_centre.
Print Assumptions C84_deviation_plane.
Print Assumptions C84_deviation_space.
Print Assumptions C84_radii.
Print Assumptions C84_radii_refuted.
Print Assumptions C84_decreasing.
Print Assumptions C84_flat.
Print Assumptions C84_smooth.
Print Assumptions C84_scaling.

(** C125: wrapped coordinates and depths with rounded numbers. *)
From Coq Require Import List ZArith QArith Bool Floats.SpecFloat Reals Lia Lra Psatz.
From Flocq Require Import Core Div_sqrt_error.
From Verif Require Import Base RoundModel RoundFloatModel RoundFloatTheorems RoundExactTheorems WrapModel WrapSpec.
From Verif Require VisModel VisSpec HsmlModel FrontModel.
Import ListNotations.
Open Scope R_scope.

#[local] Instance prec53' : Prec_gt_0 53. Proof. reflexivity. Qed.

Lemma u53_bpow : u53 = bpow radix2 (-53).
Proof. unfold u53. change (bpow radix2 (-53)) with (/ IZR (2 ^ 53)). f_equal. exact (pow_IZR 2 53). Qed.
Lemma u53_small : 0 < u53 < / 1000.
Proof.
  rewrite u53_bpow. split; [apply bpow_gt_0|]. apply Rlt_trans with (bpow radix2 (-10)); [apply bpow_lt; lia|]. cbn. lra.
Qed.
Lemma rnd_error_abs x : Rabs (rnd 53 x - x) <= Rabs x * u53.
Proof.
  rewrite u53_bpow. eapply Rle_trans; [apply error_le_half_ulp; typeclasses eauto|].
  pose proof (ulp_FLX_le radix2 53 x) as U. change (1 - 53)%Z with (1 + -53)%Z in U. rewrite bpow_plus in U.
  change (bpow radix2 1) with 2 in U. lra.
Qed.

(** * The remainder *)
Lemma mod_cases x L : double_number x -> double_number L -> 0 < L ->
  let r := mod_r x L in
  double_number r /\ 0 <= r <= L /\ (0 <= x -> r = x - IZR (Zfloor (x / L)) * L /\ r < L) /\ near_mod L (u53 * L) r x.
Proof.
  intros Fx FL HL. cbv zeta. unfold near_mod. assert (I : 0 < / L) by (apply Rinv_0_lt_compat; exact HL).
  assert (Q : x = L * (x / L)) by (field; lra). pose proof u53_small as U.
  assert (Fr : double_number (rem_toward x L)).
  { unfold rem_toward. rewrite (Rmult_comm L). apply format_REM_ZR; auto; typeclasses eauto. }
  unfold mod_r. destruct (Rle_dec 0 x) as [X|X].
  - assert (T : Ztrunc (x / L) = Zfloor (x / L)) by (apply Ztrunc_floor; apply Rmult_le_pos; lra).
    pose proof (Zfloor_lb (x / L)) as F1. pose proof (Zfloor_ub (x / L)) as F2.
    assert (R1 : rem_toward x L = x - IZR (Zfloor (x / L)) * L) by (unfold rem_toward; rewrite T; ring).
    assert (0 <= rem_toward x L < L) by (rewrite R1; nra).
    destruct (Rle_dec 0 (rem_toward x L * L)) as [C|C]; [|exfalso; apply C; nra].
    split; [exact Fr|]. split; [lra|]. split; [intros _; split; [exact R1|lra]|].
    exists (- Zfloor (x / L))%Z. rewrite R1, opp_IZR.
    replace (x - IZR (Zfloor (x / L)) * L - (x + - IZR (Zfloor (x / L)) * L)) with 0 by ring. rewrite Rabs_R0. nra.
  - assert (T : Ztrunc (x / L) = Zceil (x / L)) by (apply Ztrunc_ceil; unfold Rdiv; nra).
    pose proof (Zceil_ub (x / L)) as C1. assert (C2 : IZR (Zceil (x / L)) < x / L + 1).
    { unfold Zceil. rewrite opp_IZR. pose proof (Zfloor_ub (- (x / L))). lra. }
    set (c := Zceil (x / L)) in *.
    assert (R1 : rem_toward x L = x - IZR c * L) by (unfold rem_toward; rewrite T; ring).
    assert (Rg : - L < rem_toward x L <= 0) by (rewrite R1; nra).
    destruct (Rle_dec 0 (rem_toward x L * L)) as [C|C].
    + assert (E : rem_toward x L = 0) by nra. split; [exact Fr|]. rewrite E. split; [lra|]. split; [intro; lra|].
      exists (- c)%Z. rewrite opp_IZR. replace (0 - (x + - IZR c * L)) with 0 by lra. rewrite Rabs_R0. nra.
    + assert (Rn : rem_toward x L < 0) by nra. set (s := rem_toward x L + L) in *.
      assert (S : 0 < s < L) by (unfold s; lra).
      split; [apply rnd_format|]. split.
      { split; [rewrite <- rnd_0; apply rnd_le; lra|]. apply Rle_trans with (rnd 53 L); [apply rnd_le; lra|rewrite (rnd_id L FL); lra]. }
      split; [intro; lra|]. exists (1 - c)%Z. rewrite minus_IZR.
      replace (x + (1 - IZR c) * L) with s by (unfold s; rewrite R1; ring).
      eapply Rle_lt_trans; [apply rnd_error_abs|]. rewrite Rabs_pos_eq by lra. nra.
Qed.

(** Wrapping: the result is a number from zero to the length of the box, both included; it is exact for positions that
    are not negative, and otherwise within 2^-53 boxes of an image. *)
Theorem C125_wrap : forall x L, double_number x -> double_number L -> 0 < L ->
  let r := wrap_coord rounded true L x in
  double_number r /\ 0 <= r <= L /\ near_mod L (u53 * L) r x
  /\ (0 <= x -> r = x - IZR (Zfloor (x / L)) * L /\ r < L) /\ (0 <= x < L -> r = x).
Proof.
  intros x L Fx FL HL. destruct (mod_cases x L Fx FL HL) as (H1 & H2 & H3 & H4). cbv zeta. unfold wrap_coord. cbn [rounded modulo].
  split; [exact H1|]. split; [exact H2|]. split; [exact H4|]. split; [exact H3|]. intros (X0 & X1).
  destruct (H3 X0) as (E & _). rewrite E. replace (Zfloor (x / L)) with 0%Z; [lra|]. symmetry. apply Zfloor_imp. split.
  - apply Rmult_le_pos; [lra|]. apply Rlt_le, Rinv_0_lt_compat, HL.
  - apply (Rmult_lt_reg_r L); [lra|]. unfold Rdiv. rewrite Rmult_assoc, Rinv_l by lra. cbn. lra.
Qed.

(** Wrapping again changes nothing, but for a position that has come to be at the end of the box: this goes to zero,
    where it stays. *)
Theorem C125_again : forall x L, double_number x -> double_number L -> 0 < L ->
  let once := wrap_coord rounded true L x in
  let twice := wrap_coord rounded true L once in
  (once < L -> twice = once) /\ (once = L -> twice = 0) /\ wrap_coord rounded true L twice = twice.
Proof.
  intros x L Fx FL HL. cbv zeta. destruct (C125_wrap x L Fx FL HL) as (F1 & R1 & _). cbv zeta in F1, R1.
  set (once := wrap_coord rounded true L x) in *. clearbody once.
  assert (In : forall y, double_number y -> 0 <= y < L -> wrap_coord rounded true L y = y).
  { intros y Fy Hy. destruct (C125_wrap y L Fy FL HL) as (_ & _ & _ & _ & E). apply E. exact Hy. }
  assert (End : once = L -> wrap_coord rounded true L once = 0).
  { intros ->. destruct (C125_wrap L L FL FL HL) as (_ & _ & _ & E & _). destruct E as (E & _); [lra|]. rewrite E.
    replace (L / L) with 1 by (field; lra). replace (Zfloor 1) with 1%Z by (symmetry; apply (Zfloor_IZR 1)). lra. }
  split; [intro; apply In; [exact F1|lra]|]. split; [exact End|].
  destruct (Rle_lt_or_eq_dec once L) as [H|H]; [lra| |].
  - rewrite (In once F1) by lra. apply In; [exact F1|lra].
  - rewrite (End H). apply In; [apply generic_format_0|lra].
Qed.

(** In double precision: a position just below zero is at the end of the box after the first picture and at zero after
    the second one. *)
Theorem C125_again_refuted : exists x L,
  SFltb x (dbl 0 0) = true /\ L = dbl 1 0 /\
  wrap_coord ieee true L x = L /\ wrap_coord ieee true L (wrap_coord ieee true L x) = dbl 0 0.
Proof.
  exists (dbl (-1) (-60)), (dbl 1 0). split; [vm_compute; reflexivity|]. split; [reflexivity|].
  split; vm_compute; reflexivity.
Qed.

(** * Normalised coordinates *)

(** They are in the box, the end included, and off by at most eight units in the last place of the numbers involved. *)
Theorem C125_normed : forall lo M L x, double_number x -> double_number L -> 0 < L -> 0 < M ->
  let n := normed_coord rounded true lo M L x in
  let B := div rounded L M in
  0 < B /\ 0 <= n <= B /\ near_mod_eq L (8 * u53 * (L + Rabs lo)) (n * M) (x - lo).
Proof.
  intros lo M L x Fx FL HL HM. cbv zeta. unfold normed_coord, wrap_coord. cbn [rounded modulo div sub]. unfold rnd2.
  pose proof u53_small as U. destruct (mod_cases x L Fx FL HL) as (_ & R0 & _ & k1 & E0). cbv zeta in R0, E0.
  set (x0 := mod_r x L) in *. set (a := rnd 53 (x0 - lo)). set (t := rnd 53 (a / M)). set (B := rnd 53 (L / M)).
  assert (LM : 0 < L / M) by (apply Rdiv_lt_0_compat; lra).
  pose proof (rnd_error_abs (L / M)) as EB. fold B in EB. rewrite (Rabs_pos_eq (L / M)) in EB by lra. apply Rabs_le_inv in EB.
  assert (HB : 0 < B) by nra.
  destruct (mod_cases t B (rnd_format _) (rnd_format _) HB) as (_ & Rn & _ & k2 & En). cbv zeta in Rn, En.
  set (n := mod_r t B) in *. split; [exact HB|]. split; [exact Rn|]. exists (k1 + k2)%Z.
  pose proof (rnd_error_abs (x0 - lo)) as Ea. fold a in Ea. pose proof (rnd_error_abs (a / M)) as Et. fold t in Et.
  set (D := L + Rabs lo). assert (HD : L <= D) by (unfold D; pose proof (Rabs_pos lo); lra).
  assert (X0 : Rabs (x0 - lo) <= D).
  { unfold D. eapply Rle_trans; [apply Rabs_triang|]. rewrite Rabs_Ropp, (Rabs_pos_eq x0) by lra. lra. }
  assert (Ha : Rabs a <= (1 + u53) * D).
  { replace a with ((a - (x0 - lo)) + (x0 - lo)) by ring. eapply Rle_trans; [apply Rabs_triang|]. nra. }
  assert (Q : Rabs (a / M) * M = Rabs a).
  { unfold Rdiv. rewrite Rabs_mult, (Rabs_pos_eq (/ M)) by (apply Rlt_le, Rinv_0_lt_compat, HM). field. lra. }
  assert (EtM : Rabs (t * M - a) <= u53 * Rabs a).
  { replace (t * M - a) with ((t - a / M) * M) by (field; lra). rewrite Rabs_mult, (Rabs_pos_eq M) by lra.
    apply (Rmult_le_compat_r M) in Et; [|lra]. nra. }
  assert (EBM : Rabs (B * M - L) <= u53 * L).
  { replace (B * M - L) with ((B - L / M) * M) by (field; lra). rewrite Rabs_mult, (Rabs_pos_eq M) by lra.
    assert (E : Rabs (B - L / M) <= L / M * u53) by (apply Rabs_le; lra).
    apply (Rmult_le_compat_r M) in E; [|lra]. replace (L / M * u53 * M) with (u53 * L) in E by (field; lra). exact E. }
  assert (BM : (1 - u53) * L <= B * M <= (1 + u53) * L) by (apply Rabs_le_inv in EBM; lra).
  assert (EnM : Rabs (n * M - (t * M + IZR k2 * (B * M))) <= u53 * ((1 + u53) * L)).
  { replace (n * M - (t * M + IZR k2 * (B * M))) with ((n - (t + IZR k2 * B)) * M) by ring.
    rewrite Rabs_mult, (Rabs_pos_eq M) by lra. apply Rlt_le in En. apply (Rmult_le_compat_r M) in En; [|lra]. nra. }
  assert (K : Rabs (IZR k2) * L <= 3 * D).
  { assert (T : Rabs (t * M) <= (1 + u53) * ((1 + u53) * D)).
    { replace (t * M) with ((t * M - a) + a) by ring. eapply Rle_trans; [apply Rabs_triang|]. nra. }
    assert (N : Rabs (n * M) <= (1 + u53) * L) by (rewrite Rabs_pos_eq by nra; nra).
    assert (S : Rabs (IZR k2 * (B * M)) <= u53 * ((1 + u53) * L) + (1 + u53) * L + (1 + u53) * ((1 + u53) * D)).
    { replace (IZR k2 * (B * M)) with (- (n * M - (t * M + IZR k2 * (B * M))) + (n * M + - (t * M))) by ring.
      eapply Rle_trans; [apply Rabs_triang|]. rewrite Rabs_Ropp. pose proof (Rabs_triang (n * M) (- (t * M))) as Tr.
      rewrite Rabs_Ropp in Tr. lra. }
    rewrite Rabs_mult, (Rabs_pos_eq (B * M)) in S by nra. pose proof (Rabs_pos (IZR k2)) as Pk.
    assert (Rabs (IZR k2) * ((1 - u53) * L) <= Rabs (IZR k2) * (B * M)) by (apply Rmult_le_compat_l; lra).
    set (q := Rabs (IZR k2) * L). assert (Q0 : 0 <= q) by (apply Rmult_le_pos; lra).
    replace (Rabs (IZR k2) * ((1 - u53) * L)) with (q * (1 - u53)) in H by (unfold q; ring).
    assert (Q1 : q * (999 / 1000) <= q * (1 - u53)) by (apply Rmult_le_compat_l; lra).
    assert (D1 : (1 + u53) * D <= 1001 / 1000 * D) by (apply Rmult_le_compat_r; lra).
    assert (D2 : (1 + u53) * ((1 + u53) * D) <= 1001 / 1000 * (1001 / 1000 * D)) by (apply Rmult_le_compat; try lra; apply Rmult_le_pos; lra).
    assert (D3 : (1 + u53) * L <= 1001 / 1000 * D) by (apply Rmult_le_compat; lra).
    assert (D4 : u53 * ((1 + u53) * L) <= / 1000 * (1001 / 1000 * D)) by (apply Rmult_le_compat; try lra; apply Rmult_le_pos; lra).
    lra. }
  replace (n * M - (x - lo + IZR (k1 + k2) * L))
    with ((n * M - (t * M + IZR k2 * (B * M))) + ((t * M - a) + ((a - (x0 - lo)) + ((x0 - (x + IZR k1 * L)) + IZR k2 * (B * M - L)))))
    by (rewrite plus_IZR; ring).
  assert (K2 : Rabs (IZR k2 * (B * M - L)) <= u53 * (3 * D)).
  { rewrite Rabs_mult. pose proof (Rabs_pos (IZR k2)). apply Rle_trans with (Rabs (IZR k2) * (u53 * L)); [apply Rmult_le_compat_l; lra|].
    replace (Rabs (IZR k2) * (u53 * L)) with (u53 * (Rabs (IZR k2) * L)) by ring. apply Rmult_le_compat_l; lra. }
  eapply Rle_trans; [apply Rabs_triang|].
  clear - U EnM EtM Ha Ea X0 E0 K2 HD HL.
  eapply Rle_trans; [apply Rplus_le_compat_l; eapply Rle_trans; [apply Rabs_triang|];
    apply Rplus_le_compat_l; eapply Rle_trans; [apply Rabs_triang|]; apply Rplus_le_compat_l; apply Rabs_triang|].
  assert (D1 : (1 + u53) * D <= 1001 / 1000 * D) by (apply Rmult_le_compat_r; lra).
  assert (D2 : (1 + u53) * L <= 1001 / 1000 * D) by (apply Rmult_le_compat; lra).
  assert (G1 : u53 * ((1 + u53) * L) <= u53 * (1001 / 1000 * D)) by (apply Rmult_le_compat_l; lra).
  assert (G2 : u53 * Rabs a <= u53 * (1001 / 1000 * D)) by (apply Rmult_le_compat_l; lra).
  assert (G3 : Rabs (x0 - lo) * u53 <= D * u53) by (apply Rmult_le_compat_r; lra).
  assert (G4 : u53 * L <= u53 * D) by (apply Rmult_le_compat_l; lra).
  assert (G5 : 0 <= u53 * D) by (apply Rmult_le_pos; lra).
  apply Rlt_le in E0. lra.
Qed.

(** So the conditions on positions of the picture theorems (C37-C41) hold for rounded coordinates. *)
Theorem C125_in_box : forall lo M L x, double_number x -> double_number L -> 0 < L -> 0 < M ->
  VisSpec.wrapped (div rounded L M) (normed_coord rounded true lo M L x).
Proof.
  intros lo M L x Fx FL HL HM. destruct (C125_normed lo M L x Fx FL HL HM) as (_ & H & _). right. exact H.
Qed.

(** * The depth of projections *)

Lemma whole_number : forall k L lo hi, 0 < L -> lo * L < IZR k * L < hi * L -> lo < IZR k < hi.
Proof. intros k L lo hi HL (H1 & H2). split; apply (Rmult_lt_reg_r L); assumption. Qed.

Lemma some_image : forall L lo hi z, 0 < L -> lo + L <= hi -> image_within L lo hi z.
Proof.
  intros L lo hi z HL H. exists (- Zfloor ((z - lo) / L))%Z. rewrite opp_IZR.
  pose proof (Zfloor_lb ((z - lo) / L)) as F1. pose proof (Zfloor_ub ((z - lo) / L)) as F2.
  assert (Q : z - lo = L * ((z - lo) / L)) by (field; lra). nra.
Qed.

Lemma lessb_R : forall x y, less rounded x y = true -> x < y.
Proof. intros x y. cbn [rounded less]. destruct (Rlt_dec x y); [auto|discriminate]. Qed.
Lemma leb_R : forall x y, less_eq rounded x y = true <-> x <= y.
Proof. intros. cbn [rounded less_eq]. destruct (Rle_dec x y); split; intro; auto; discriminate. Qed.
Lemma leb_R_false : forall x y, less_eq rounded x y = false <-> y < x.
Proof. intros. cbn [rounded less_eq]. destruct (Rle_dec x y); split; intro; auto; try discriminate; lra. Qed.

Lemma integer_cases : forall (k : Z) (a b : Z), IZR a < IZR k -> IZR k < IZR b -> (a < k < b)%Z.
Proof. intros k a b H1 H2. split; apply lt_IZR; assumption. Qed.

(** Particles inside of the depth, by a margin of 2^-52 boxes, are kept if it leaves out as much of the box. *)
Theorem C125_depth_keeps : forall L z0 z1 z, double_number L -> double_number z0 -> double_number z1 -> 0 < L -> 0 <= z <= L ->
  z1 - z0 <= L - 2 * u53 * L -> image_within L (z0 + 2 * u53 * L) (z1 - 2 * u53 * L) z ->
  kept_depth rounded true L z0 z1 z = true.
Proof.
  intros L z0 z1 z FL F0 F1 HL Hz Hd (k & K).
  destruct (mod_cases z0 L F0 FL HL) as (_ & R0 & _ & k0 & E0). destruct (mod_cases z1 L F1 FL HL) as (_ & R1 & _ & k1 & E1).
  cbv zeta in *. unfold kept_depth. cbn [rounded modulo]. fold rounded.
  set (r0 := mod_r z0 L) in *. set (r1 := mod_r z1 L) in *. clearbody r0 r1.
  pose proof u53_small as U. apply Rabs_def2 in E0. apply Rabs_def2 in E1.
  set (e := u53 * L) in *. assert (He : 0 < e < L / 1000) by (unfold e; nra).
  replace (2 * u53 * L) with (2 * e) in * by (unfold e; ring). clearbody e. clear U F0 F1 FL.
  set (d0 := r0 - (z0 + IZR k0 * L)) in *. set (d1 := r1 - (z1 + IZR k1 * L)) in *.
  (* z = r0 + s - j L and z = r1 - s' + j' L *)
  assert (J : exists j, IZR j * L = IZR k * L + IZR k0 * L) by (exists (k + k0)%Z; rewrite plus_IZR; ring).
  assert (J' : exists j, IZR j * L = - (IZR k * L + IZR k1 * L)) by (exists (- (k + k1))%Z; rewrite opp_IZR, plus_IZR; ring).
  destruct J as (j & J). destruct J' as (j' & J').
  assert (Zj : z = r0 + (z + IZR k * L - z0 - d0) - IZR j * L) by (rewrite J; unfold d0; ring).
  assert (Zj' : z = r1 - (z1 - (z + IZR k * L) + d1) + IZR j' * L) by (rewrite J'; unfold d1; ring).
  set (s := z + IZR k * L - z0 - d0) in *. set (s' := z1 - (z + IZR k * L) + d1) in *.
  assert (S : e < s < L) by (unfold s; lra). assert (S' : e < s' < L) by (unfold s'; lra).
  assert (Ss : s + s' < L) by (unfold s, s'; lra). clearbody s s'. clear J J' K.
  assert (Bj : (-1 < j < 2)%Z).
  { apply integer_cases; apply (Rmult_lt_reg_r L); try lra. }
  assert (Bj' : (-1 < j' < 2)%Z).
  { apply integer_cases; apply (Rmult_lt_reg_r L); try lra. }
  assert (Cj : j = 0%Z \/ j = 1%Z) by lia. assert (Cj' : j' = 0%Z \/ j' = 1%Z) by lia.
  destruct (less_eq rounded r1 r0) eqn:C; [apply leb_R in C; apply orb_true_iff|apply leb_R_false in C; apply andb_true_iff];
    rewrite !leb_R; destruct Cj as [-> | -> ], Cj' as [-> | -> ]; cbn in Zj, Zj'; lra.
Qed.

(** Particles that are kept are inside of the depth, or outside of it by less than that, if the depth is not as thin. *)
Theorem C125_depth_keeps_only : forall L z0 z1 z, double_number L -> double_number z0 -> double_number z1 -> 0 < L -> 0 <= z <= L ->
  2 * u53 * L < z1 - z0 -> kept_depth rounded true L z0 z1 z = true ->
  image_within L (z0 - 2 * u53 * L) (z1 + 2 * u53 * L) z.
Proof.
  intros L z0 z1 z FL F0 F1 HL Hz Hd Hk.
  destruct (mod_cases z0 L F0 FL HL) as (_ & R0 & _ & k0 & E0). destruct (mod_cases z1 L F1 FL HL) as (_ & R1 & _ & k1 & E1).
  cbv zeta in *. unfold kept_depth in Hk. cbn [rounded modulo] in Hk. fold rounded in Hk.
  set (r0 := mod_r z0 L) in *. set (r1 := mod_r z1 L) in *. clearbody r0 r1.
  pose proof u53_small as U. apply Rabs_def2 in E0. apply Rabs_def2 in E1.
  set (e := u53 * L) in *. assert (He : 0 < e < L / 1000) by (unfold e; nra).
  replace (2 * u53 * L) with (2 * e) in * by (unfold e; ring). clearbody e. clear U F0 F1 FL.
  destruct (Rle_dec (L - 2 * e) (z1 - z0)) as [W|W]; [apply some_image; lra|].
  assert (J : exists j, IZR j * L = IZR k1 * L - IZR k0 * L) by (exists (k1 - k0)%Z; rewrite minus_IZR; ring).
  destruct J as (j & J).
  assert (Bj : (-2 < j < 1)%Z) by (apply integer_cases; apply (Rmult_lt_reg_r L); lra).
  assert (Cj : j = 0%Z \/ j = (-1)%Z) by lia.
  destruct (less_eq rounded r1 r0) eqn:C; [apply leb_R in C; apply orb_true_iff in Hk|apply leb_R_false in C; apply andb_true_iff in Hk];
    rewrite !leb_R in Hk.
  - destruct Cj as [-> | -> ]; cbn in J; [exfalso; lra|]. destruct Hk as [H|H].
    + exists (- k1)%Z. rewrite opp_IZR. lra.
    + exists (- k0)%Z. rewrite opp_IZR. lra.
  - destruct Cj as [-> | -> ]; cbn in J; [|exfalso; lra]. exists (- k0)%Z. rewrite opp_IZR. lra.
Qed.

(** The mask of the depth, particles anywhere: a depth of at most one box is accepted, with the same guarantees for every
    particle, the margin now 3 * 2^-53 boxes because positions are wrapped first. *)
Lemma image_near : forall L lo hi e r z, 0 < L -> near_mod L e r z -> image_within L lo hi r -> image_within L (lo - e) (hi + e) z.
Proof.
  intros L lo hi e r z HL (k & E) (j & J). apply Rabs_def2 in E. exists (k + j)%Z. rewrite plus_IZR. lra.
Qed.
Lemma image_near_back : forall L lo hi e r z, 0 < L -> near_mod L e r z -> image_within L (lo + e) (hi - e) z -> image_within L lo hi r.
Proof.
  intros L lo hi e r z HL (k & E) (j & J). apply Rabs_def2 in E. exists (j - k)%Z. rewrite minus_IZR. lra.
Qed.
Theorem C125_depth_mask : forall L z0 z1 zs, double_number L -> double_number z0 -> double_number z1 -> Forall double_number zs -> 0 < L ->
  2 * u53 * L < z1 - z0 <= L - 2 * u53 * L ->
  exists keep, depth_mask rounded true L z0 z1 zs = Ok keep /\ length keep = length zs
    /\ forall i, (i < length zs)%nat ->
       (image_within L (z0 + 3 * (u53 * L)) (z1 - 3 * (u53 * L)) (nth i zs 0) -> nth i keep false = true)
       /\ (nth i keep false = true -> image_within L (z0 - 3 * (u53 * L)) (z1 + 3 * (u53 * L)) (nth i zs 0)).
Proof.
  intros L z0 z1 zs FL F0 F1 Fz HL Hd. unfold depth_mask. cbn [andb].
  replace (less rounded L (sub rounded z1 z0)) with false.
  2:{ symmetry. cbn [rounded less sub]. unfold rnd2.
      assert (Q : rnd 53 (z1 - z0) <= L).
      { apply Rle_trans with (rnd 53 L); [apply rnd_le|rewrite (rnd_id L FL); lra]. pose proof u53_small. assert (0 < u53 * L) by (apply Rmult_lt_0_compat; lra). lra. }
      match goal with |- ?b = false => destruct b eqn:E end; [|reflexivity]. apply lessb_R in E. lra. }
  eexists. split; [reflexivity|]. split; [apply map_length|]. intros i Hi.
  rewrite nth_indep with (d' := (fun z => kept_depth rounded true L z0 z1 (wrap_coord rounded true L z)) 0) by (rewrite map_length; exact Hi).
  rewrite (map_nth (fun z => kept_depth rounded true L z0 z1 (wrap_coord rounded true L z))).
  assert (Fi : double_number (nth i zs 0)) by (rewrite Forall_forall in Fz; apply Fz, nth_In, Hi).
  destruct (C125_wrap (nth i zs 0) L Fi FL HL) as (_ & R0 & Nr & _). cbv zeta in *.
  set (r := wrap_coord rounded true L (nth i zs 0)) in *. split; intro H.
  - apply C125_depth_keeps; try assumption; [lra|]. apply (image_near_back L _ _ (u53 * L) r (nth i zs 0) HL Nr).
    replace (z0 + 2 * u53 * L + u53 * L) with (z0 + 3 * (u53 * L)) by ring. replace (z1 - 2 * u53 * L - u53 * L) with (z1 - 3 * (u53 * L)) by ring. exact H.
  - apply C125_depth_keeps_only in H; try assumption; [|lra]. apply (image_near L _ _ (u53 * L) r (nth i zs 0) HL Nr) in H.
    replace (z0 - 2 * u53 * L - u53 * L) with (z0 - 3 * (u53 * L)) in H by ring. replace (z1 + 2 * u53 * L + u53 * L) with (z1 + 3 * (u53 * L)) in H by ring. exact H.
Qed.
(** A depth of at most a box is accepted, one that is longer than a box by more than two roundings is refused. *)
Theorem C125_depth_refused : forall L z0 z1 zs, double_number L -> 0 < L ->
  (z1 - z0 <= L -> exists keep, depth_mask rounded true L z0 z1 zs = Ok keep)
  /\ (L + 2 * u53 * L < z1 - z0 -> depth_mask rounded true L z0 z1 zs = Err ValueError).
Proof.
  intros L z0 z1 zs FL HL. unfold depth_mask. cbn [andb rounded less sub]. unfold rnd2. pose proof u53_small as U. split; intro H.
  - destruct (Rlt_dec L (rnd 53 (z1 - z0))) as [E|]; [|eexists; reflexivity].
    apply rnd_le in H. rewrite (rnd_id L FL) in H. lra.
  - destruct (Rlt_dec L (rnd 53 (z1 - z0))) as [|E]; [reflexivity|]. exfalso. apply E.
    assert (P : 0 < u53 * L) by (apply Rmult_lt_0_compat; lra). pose proof (rnd_error_abs (z1 - z0)) as D. rewrite (Rabs_pos_eq (z1 - z0)) in D by lra.
    apply Rabs_le_inv in D. assert (Q : (L + 2 * u53 * L) * (1 - u53) < (z1 - z0) * (1 - u53)) by (apply Rmult_lt_compat_r; lra).
    assert (P2 : u53 * L * u53 < u53 * L * / 1000) by (apply Rmult_lt_compat_l; lra).
    replace ((L + 2 * u53 * L) * (1 - u53)) with (L + u53 * L - 2 * (u53 * L * u53)) in Q by ring. lra.
Qed.
(** Without periodic boundaries the limits are compared as they are. *)
Theorem C125_depth_mask_open : forall A L z0 z1 zs,
  depth_mask A false L z0 z1 zs = Ok (map (fun z => less_eq A z z1 && less_eq A z0 z)%bool zs).
Proof. reflexivity. Qed.

(** In double precision: of a depth that is the whole box, from -0.9 to 0.1, nearly nothing is kept. *)
Theorem C125_whole_depth_refuted : exists L z0 z1 z, L = dbl 1 0 /\ z0 = SFopp (lit ieee (9 # 10)) /\ z1 = lit ieee (1 # 10) /\
  sub ieee z1 z0 = L /\ SFltb (dbl 0 0) z = true /\ SFltb z L = true /\
  depth_mask ieee true L z0 z1 [z] = Ok [false].
Proof.
  exists (dbl 1 0), (SFopp (lit ieee (9 # 10))), (lit ieee (1 # 10)), (dbl 1 (-1)).
  repeat match goal with |- _ /\ _ => split end; vm_compute; reflexivity.
Qed.

(** A very thin depth just below zero keeps every particle. *)
Theorem C125_thin_depth_refuted : exists L z0 z1 z, L = dbl 1 0 /\ SFltb z0 z1 = true /\ SFltb z1 (dbl 0 0) = true /\
  z = dbl 1 (-1) /\ depth_mask ieee true L z0 z1 [z] = Ok [true].
Proof.
  exists (dbl 1 0), (dbl (-1) (-60)), (dbl (-1) (-61)), (dbl 1 (-1)).
  repeat match goal with |- _ /\ _ => split end; vm_compute; reflexivity.
Qed.

(** * With exact numbers the model is that of FrontModel.v *)
Theorem C125_exact : forall periodic L M lo z0 z1 z,
  kept_depth exact periodic L z0 z1 z = FrontModel.in_depth periodic L z0 z1 z
  /\ wrap_coord exact periodic L z = (if periodic then HsmlModel.rmod z L else z)
  /\ normed_coord exact periodic lo M L z
     = FrontModel.rem_if periodic (((if periodic then HsmlModel.rmod z L else z) - lo) / M) (L / M).
Proof.
  assert (E : forall x L, modulo exact x L = HsmlModel.rmod x L).
  { intros x L. reflexivity. }
  intros periodic L M lo z0 z1 z. unfold kept_depth, normed_coord, wrap_coord, FrontModel.in_depth, FrontModel.rem_if.
  rewrite !E. split; [reflexivity|]. split; reflexivity.
Qed.

(** * Concrete cases *)
Example C125_example :
  wrap_coord ieee true (dbl 5 0) (dbl (-7) 0) = dbl 3 0
  /\ normed_coord ieee true (dbl 1 0) (dbl 2 0) (dbl 5 0) (dbl (-7) 0) = dbl 1 0
  /\ depth_mask ieee true (dbl 5 0) (dbl (-1) 0) (dbl 1 0) [dbl 1 (-1); dbl 9 (-1); dbl 2 0; dbl (-9) 0] = Ok [true; true; false; true]
  /\ depth_mask ieee true (dbl 5 0) (dbl (-3) 0) (dbl 3 0) [dbl 1 0] = Err ValueError
  /\ depth_mask ieee false (dbl 5 0) (dbl (-3) 0) (dbl 3 0) [dbl 1 0; dbl (-4) 0] = Ok [true; false].
Proof. repeat match goal with |- _ /\ _ => split end; vm_compute; reflexivity. Qed.

(** The hypotheses of the theorems on the depth are met: the middle of a depth of half the box. *)
Example C125_example_met : double_number 1 /\ double_number (/ 2) /\ double_number 0 /\ 0 <= / 4 <= 1 /\
  / 2 - 0 <= 1 - 2 * u53 * 1 /\ 2 * u53 * 1 < / 2 - 0 /\ image_within 1 (0 + 2 * u53 * 1) (/ 2 - 2 * u53 * 1) (/ 4).
Proof.
  pose proof u53_small as U. repeat match goal with |- _ /\ _ => split end; try lra.
  - apply (int_format 53 1); lia.
  - replace (/ 2) with (bpow radix2 (-1)) by (cbn; lra). apply generic_format_bpow. unfold FLX_exp. lia.
  - apply generic_format_0.
  - exists 0%Z. lra.
Qed.

Print Assumptions C125_wrap.
Print Assumptions C125_again.
Print Assumptions C125_again_refuted.
Print Assumptions C125_normed.
Print Assumptions C125_in_box.
Print Assumptions C125_depth_keeps.
Print Assumptions C125_depth_keeps_only.
Print Assumptions C125_depth_mask.
Print Assumptions C125_depth_refused.
Print Assumptions C125_depth_mask_open.
Print Assumptions C125_whole_depth_refuted.
Print Assumptions C125_thin_depth_refuted.
Print Assumptions C125_exact.

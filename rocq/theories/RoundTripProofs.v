(** Products and quotients rounded to nearest even: dividing after multiplying changes a number at most once. *)
From Coq Require Import ZArith Reals Lia Lra.
From Flocq Require Import Core Mult_error.
From Verif Require Import RoundFloatModel.
Open Scope R_scope.

Section Precision.
Variable p : Z.
Hypothesis P : (1 < p)%Z.
#[local] Instance prec_p : Prec_gt_0 p. Proof. unfold Prec_gt_0. lia. Qed.
#[local] Instance exists_p : Exists_NE radix2 (FLX_exp p). Proof. apply exists_NE_FLX. right. exact P. Qed.
Notation format := (generic_format radix2 (FLX_exp p)).
Notation rn := (rnd p).

Lemma rn_format x : format (rn x).
Proof. apply generic_format_round; typeclasses eauto. Qed.
Lemma rn_le x y : x <= y -> rn x <= rn y.
Proof. apply round_le; typeclasses eauto. Qed.
Lemma rn_id x : format x -> rn x = x.
Proof. apply round_generic; typeclasses eauto. Qed.
Lemma rn_zero : rn 0 = 0. Proof. apply round_0. typeclasses eauto. Qed.
Lemma rn_opp x : rn (- x) = - rn x.
Proof. apply round_NE_opp. Qed.
Lemma near z w : format w -> Rabs (rn z - z) <= Rabs (w - z).
Proof. intro F. exact (proj2 (proj1 (round_NE_pt radix2 (FLX_exp p) z)) w F). Qed.
Lemma rn_error x : Rabs (rn x - x) <= Rabs x * bpow radix2 (- p).
Proof.
  eapply Rle_trans; [apply error_le_half_ulp; typeclasses eauto|].
  pose proof (ulp_FLX_le radix2 p x) as U. replace (1 - p)%Z with (1 + - p)%Z in U by lia. rewrite bpow_plus in U.
  change (bpow radix2 1) with 2 in U. lra.
Qed.
Lemma unit_small : 0 < bpow radix2 (- p) <= / 4.
Proof. split; [apply bpow_gt_0|]. change (/ 4) with (bpow radix2 (-2)). apply bpow_le. lia. Qed.
Lemma rn_pos x : 0 < x -> 0 < rn x.
Proof.
  intro H. pose proof (rn_error x) as E. rewrite (Rabs_pos_eq x) in E by lra. apply Rabs_le_inv in E.
  pose proof unit_small. nra.
Qed.

(** * Parity *)

Definition even_number (v : R) : Prop :=
  exists g : float radix2, v = F2R g /\ canonical radix2 (FLX_exp p) g /\ Z.even (Fnum g) = true.

Lemma tie z w w' : rn z = w -> format w' -> w' <> w -> Rabs (w' - z) = Rabs (w - z) -> even_number w /\ ~ even_number w'.
Proof.
  intros E F N D. pose proof (round_NE_pt radix2 (FLX_exp p) z) as H. fold (rnd p z) in H. rewrite E in H.
  assert (N' : Rnd_N_pt format z w').
  { destruct H as ((_ & H) & _). split; [exact F|]. intros g Hg. rewrite D. apply H. exact Hg. }
  assert (V : even_number w). { destruct H as (_ & [H|H]); [exact H|]. exfalso. apply N. apply H. exact N'. }
  split; [exact V|]. intros (g' & G1 & G2 & G3). destruct V as (g & V1 & V2 & V3).
  assert (Fz : ~ format z).
  { intro Fz. rewrite (rn_id z Fz) in E. subst z. replace (w - w) with 0 in D by ring. rewrite Rabs_R0 in D.
    apply N. revert D. unfold Rabs. destruct (Rcase_abs _); lra. }
  pose proof (round_DN_pt radix2 (FLX_exp p) z) as Dn. pose proof (round_UP_pt radix2 (FLX_exp p) z) as Up.
  destruct H as (H & _). pose proof (Rnd_N_pt_DN_or_UP _ _ _ H) as K. pose proof (Rnd_N_pt_DN_or_UP _ _ _ N') as K'.
  destruct K as [K|K]; destruct K' as [K'|K'].
  - apply N. exact (Rnd_DN_pt_unique _ _ _ _ K' K).
  - pose proof (Rnd_DN_pt_unique _ _ _ _ K Dn) as E1. pose proof (Rnd_UP_pt_unique _ _ _ _ K' Up) as E2.
    pose proof (DN_UP_parity_generic radix2 (FLX_exp p) z g g' Fz V2 G2 (eq_trans (eq_sym V1) E1) (eq_trans (eq_sym G1) E2)) as Q.
    rewrite V3, G3 in Q. discriminate.
  - pose proof (Rnd_UP_pt_unique _ _ _ _ K Up) as E1. pose proof (Rnd_DN_pt_unique _ _ _ _ K' Dn) as E2.
    pose proof (DN_UP_parity_generic radix2 (FLX_exp p) z g' g Fz G2 V2 (eq_trans (eq_sym G1) E2) (eq_trans (eq_sym V1) E1)) as Q.
    rewrite V3, G3 in Q. discriminate.
  - apply N. exact (Rnd_UP_pt_unique _ _ _ _ K' K).
Qed.

Lemma power_even e : even_number (bpow radix2 e).
Proof.
  exists (Float radix2 (2 ^ (p - 1)) (e - (p - 1))).
  assert (E : F2R (Float radix2 (2 ^ (p - 1)) (e - (p - 1))) = bpow radix2 e).
  { unfold F2R. cbn [Fnum Fexp]. rewrite (IZR_Zpower radix2) by lia. rewrite <- bpow_plus. f_equal. lia. }
  split; [symmetry; exact E|]. split.
  - unfold canonical. rewrite E. cbn [Fexp]. unfold cexp. rewrite mag_bpow. unfold FLX_exp. lia.
  - cbn [Fnum]. replace (p - 1)%Z with (Z.succ (p - 2)) by lia. rewrite Z.pow_succ_r by lia. rewrite Z.even_mul. reflexivity.
Qed.

(** * Neighbours *)

Lemma neighbours y : 0 < y -> format y -> exists l r, 0 < l <= r /\ format (y - l) /\ format (y + r)
  /\ (forall w, format w -> w < y -> w <= y - l) /\ (forall w, format w -> y < w -> y + r <= w)
  /\ (l = r \/ exists e, y = bpow radix2 e).
Proof.
  intros Y F. set (m := mag radix2 y). set (r := bpow radix2 (FLX_exp p m)).
  assert (U : ulp radix2 (FLX_exp p) y = r) by (apply ulp_neq_0; lra).
  assert (S : succ radix2 (FLX_exp p) y = y + r). { rewrite succ_eq_pos by lra. rewrite U. reflexivity. }
  assert (Q : exists l, pred radix2 (FLX_exp p) y = y - l /\ 0 < l <= r /\ (l = r \/ exists e, y = bpow radix2 e)).
  { rewrite pred_eq_pos by lra. unfold pred_pos. destruct (Req_bool_spec y (bpow radix2 (mag radix2 y - 1))) as [B|B].
    - exists (bpow radix2 (FLX_exp p (mag radix2 y - 1))). split; [reflexivity|]. split.
      + split; [apply bpow_gt_0|]. apply bpow_le. unfold FLX_exp, m. lia.
      + right. eexists. exact B.
    - exists r. rewrite U. split; [reflexivity|]. split; [split; [apply bpow_gt_0|lra]|left; reflexivity]. }
  destruct Q as (l & Q1 & Q2 & Q3). exists l, r. split; [exact Q2|]. split.
  { rewrite <- Q1. apply generic_format_pred; [typeclasses eauto|exact F]. } split.
  { rewrite <- S. apply generic_format_succ; [typeclasses eauto|exact F]. } split.
  { intros w Fw H. rewrite <- Q1. apply pred_ge_gt; try typeclasses eauto; assumption. } split.
  { intros w Fw H. rewrite <- S. apply succ_le_lt; try typeclasses eauto; assumption. }
  exact Q3.
Qed.

(** * Back and forth *)

Ltac absolute H := unfold Rabs in H; repeat destruct (Rcase_abs _) in H.

Section Trip.
Variables x f : R.
Hypothesis X : 0 < x.
Hypothesis Fx : format x.
Hypothesis FF : 0 < f.
Hypothesis Ff : (forall e, format (bpow radix2 e * f)) \/ (forall e, format (bpow radix2 e / f)).
Let y := rn (x * f).
Let x1 := rn (y / f).
Let y1 := rn (x1 * f).
Let x2 := rn (y1 / f).

Lemma scale a b : Rabs (a - b / f) * f = Rabs (a * f - b).
Proof.
  rewrite <- (Rabs_pos_eq f) at 2 by lra. rewrite <- Rabs_mult. f_equal. field. lra.
Qed.
Lemma y_pos : 0 < y. Proof. apply rn_pos. nra. Qed.
Lemma x1_pos : 0 < x1. Proof. apply rn_pos. apply Rdiv_lt_0_compat; [apply y_pos|exact FF]. Qed.
Lemma near_x1 w : format w -> Rabs (x1 * f - y) <= Rabs (w * f - y).
Proof. intro F. rewrite <- !scale. apply Rmult_le_compat_r; [lra|]. apply near. exact F. Qed.
Lemma near_y w : format w -> Rabs (y - x * f) <= Rabs (w - x * f).
Proof. apply near. Qed.
Lemma near_y1 w : format w -> Rabs (y1 - x1 * f) <= Rabs (w - x1 * f).
Proof. apply near. Qed.
Lemma near_x2 w : format w -> Rabs (x2 * f - y1) <= Rabs (w * f - y1).
Proof. intro F. rewrite <- !scale. apply Rmult_le_compat_r; [lra|]. apply near. exact F. Qed.

Lemma same_y : y1 = y -> x2 = x1.
Proof. intro E. unfold x2. rewrite E. reflexivity. Qed.
Lemma same_x : y1 = x1 * f -> x2 = x1.
Proof.
  intro E. unfold x2. rewrite E. replace (x1 * f / f) with x1 by (field; lra). apply rn_id. apply rn_format.
Qed.
Lemma quotient_le a b : a <= b -> a / f <= b / f.
Proof. intro H. apply Rmult_le_compat_r; [left; apply Rinv_0_lt_compat; exact FF|exact H]. Qed.
Lemma quotient_mult a : a * f / f = a. Proof. field. lra. Qed.

Lemma upwards : y < x1 * f -> x2 = x1.
Proof.
  intro C. assert (Le : y <= y1). { unfold y1. rewrite <- (rn_id y) by apply rn_format. apply rn_le. lra. }
  destruct (Req_dec y1 y) as [E|E]; [exact (same_y E)|]. assert (Lt : y < y1) by lra. exfalso.
  assert (C0 : x * f < y).
  { destruct (Rlt_dec (x * f) y) as [H|H]; [exact H|]. exfalso. destruct (Rle_dec (x1 * f) (x * f)) as [H'|H'].
    - assert (y1 <= y) by (apply rn_le; exact H'). lra.
    - pose proof (near_x1 x Fx) as Q. absolute Q; lra. }
  destruct (neighbours y y_pos (rn_format _)) as (l & r & (L & LR) & Fl & Fr & Hl & Hr & _).
  assert (A0 : y - l < x * f).
  { destruct (Rlt_dec (y - l) (x * f)) as [H|H]; [exact H|]. exfalso.
    assert (y <= y - l); [|lra]. rewrite <- (rn_id (y - l) Fl). apply rn_le. lra. }
  pose proof (near_y _ Fl) as B0. pose proof (near_x1 x Fx) as B1. pose proof (near_y1 y (rn_format _)) as B2.
  pose proof (Hr y1 (rn_format _) Lt) as S.
  rewrite (Rabs_pos_eq (y - x * f)) in B0 by lra. rewrite (Rabs_left1 (y - l - x * f)) in B0 by lra.
  rewrite (Rabs_pos_eq (x1 * f - y)) in B1 by lra. rewrite (Rabs_left1 (x * f - y)) in B1 by lra.
  rewrite (Rabs_left1 (y - x1 * f)) in B2 by lra. assert (B3 : y1 - x1 * f <= - (y - x1 * f)) by (absolute B2; lra).
  assert (E1 : y1 = y + r) by lra. assert (E2 : x1 * f = y + r / 2) by lra. assert (E3 : x * f = y - l / 2) by lra.
  destruct (tie (x * f) y (y - l) eq_refl Fl) as (V & _); [lra| |].
  { rewrite (Rabs_left1 (y - l - x * f)), (Rabs_pos_eq (y - x * f)) by lra. lra. }
  destruct (tie (x1 * f) y1 y eq_refl (rn_format _)) as (_ & W); [lra| |exact (W V)].
  rewrite (Rabs_left1 (y - x1 * f)), (Rabs_pos_eq (y1 - x1 * f)) by lra. lra.
Qed.

Lemma downwards : x1 * f < y -> x2 = x1.
Proof.
  intro C. assert (Le : y1 <= y). { unfold y1. rewrite <- (rn_id y) by apply rn_format. apply rn_le. lra. }
  destruct (Req_dec y1 y) as [E|E]; [exact (same_y E)|]. assert (Lt : y1 < y) by lra.
  assert (C0 : y < x * f).
  { destruct (Rlt_dec y (x * f)) as [H|H]; [exact H|]. exfalso. destruct (Rle_dec (x * f) (x1 * f)) as [H'|H'].
    - assert (y <= y1) by (apply rn_le; exact H'). lra.
    - pose proof (near_x1 x Fx) as Q. absolute Q; lra. }
  destruct (Req_dec y1 (x1 * f)) as [E0|E0]; [exact (same_x E0)|].
  assert (X21 : x2 <= x1) by (apply rn_le; apply quotient_le; lra).
  destruct (Rlt_dec (x1 * f) y1) as [G|G].
  { assert (x1 <= x2); [|lra]. unfold x2. rewrite <- (rn_id x1) at 1 by apply rn_format. apply rn_le.
    rewrite <- (quotient_mult x1). apply quotient_le. lra. }
  assert (G' : y1 < x1 * f) by lra. clear G E0.
  destruct (Req_dec x2 x1) as [E2|E2]; [exact E2|]. exfalso. assert (X2 : x2 < x1) by lra.
  destruct (neighbours y y_pos (rn_format _)) as (l & r & (L & LR) & Fl & Fr & Hl & Hr & K).
  assert (A0 : x * f < y + r).
  { destruct (Rlt_dec (x * f) (y + r)) as [H|H]; [exact H|]. exfalso.
    assert (y + r <= y); [|lra]. rewrite <- (rn_id (y + r) Fr) at 1. apply rn_le. lra. }
  pose proof (near_y _ Fr) as B0. pose proof (near_x1 x Fx) as B1. pose proof (near_y1 y (rn_format _)) as B2.
  pose proof (Hl y1 (rn_format _) Lt) as S.
  rewrite (Rabs_left1 (y - x * f)) in B0 by lra. rewrite (Rabs_pos_eq (y + r - x * f)) in B0 by lra.
  rewrite (Rabs_left1 (x1 * f - y)) in B1 by lra. rewrite (Rabs_pos_eq (x * f - y)) in B1 by lra.
  rewrite (Rabs_pos_eq (y - x1 * f)) in B2 by lra. rewrite (Rabs_left1 (y1 - x1 * f)) in B2 by lra.
  destruct K as [K|(e & K)].
  - assert (E1 : y1 = y - l) by lra. assert (E3 : x1 * f = y - r / 2) by lra. assert (E4 : x * f = y + r / 2) by lra.
    destruct (tie (x * f) y (y + r) eq_refl Fr) as (V & _); [lra| |].
    { rewrite (Rabs_left1 (y - x * f)), (Rabs_pos_eq (y + r - x * f)) by lra. lra. }
    destruct (tie (x1 * f) y1 y eq_refl (rn_format _)) as (_ & W); [lra| |exact (W V)].
    rewrite (Rabs_pos_eq (y - x1 * f)), (Rabs_left1 (y1 - x1 * f)) by lra. lra.
  - destruct (neighbours x1 x1_pos (rn_format _)) as (l1 & r1 & (L1 & LR1) & Fl1 & Fr1 & Hl1 & Hr1 & K1).
    destruct K1 as [K1|(e1 & K1)].
    + pose proof (near_x1 _ Fr1) as B3. pose proof (near_x2 x1 (rn_format _)) as B4. pose proof (Hl1 x2 (rn_format _) X2) as S2.
      assert (XX : x1 < x) by (apply Rmult_lt_reg_r with f; lra). pose proof (Hr1 x Fx XX) as S3.
      assert (T1 : (x1 + r1) * f <= x * f) by (apply Rmult_le_compat_r; lra).
      assert (T2 : x2 * f <= (x1 - l1) * f) by (apply Rmult_le_compat_r; lra).
      assert (T3 : 0 < r1 * f) by nra. rewrite K1 in T2. rewrite Rmult_plus_distr_r in *. rewrite Rmult_minus_distr_r in T2.
      rewrite (Rabs_left1 (x1 * f - y)) in B3 by lra. rewrite (Rabs_pos_eq (x1 * f - y1)) in B4 by lra.
      assert (H1 : y - x1 * f <= r1 * f / 2) by (absolute B3; lra).
      assert (H2 : r1 * f / 2 <= x1 * f - y1) by (absolute B4; lra).
      destruct (tie (x1 * f) y1 y eq_refl (rn_format _)) as (_ & W); [lra| |apply W; rewrite K; apply power_even].
      rewrite (Rabs_pos_eq (y - x1 * f)), (Rabs_left1 (y1 - x1 * f)) by lra. lra.
    + destruct Ff as [Q|Q].
      * assert (E3 : y1 = x1 * f); [|lra]. unfold y1. apply rn_id. rewrite K1. apply Q.
      * assert (E3 : x1 = y / f). { unfold x1. apply rn_id. rewrite K. apply Q. }
        assert (x1 * f = y) by (rewrite E3; field; lra). lra.
Qed.

Lemma settles_pos : x2 = x1.
Proof.
  destruct (Rtotal_order y (x1 * f)) as [H|[H|H]]; [exact (upwards H)| |exact (downwards H)].
  apply same_x. unfold y1. rewrite <- H. apply rn_id. apply rn_format.
Qed.
End Trip.

(** Multiplied and divided, or divided and multiplied. *)
Definition trip (f x : R) : R := rn (rn (x * f) / f).
Definition trip_back (f x : R) : R := rn (rn (x / f) * f).

Lemma trip_opp f x : trip f (- x) = - trip f x.
Proof.
  unfold trip. replace (- x * f) with (- (x * f)) by ring. rewrite rn_opp. replace (- rn (x * f) / f) with (- (rn (x * f) / f)) by (unfold Rdiv; ring).
  apply rn_opp.
Qed.

Lemma settles_both f x : format x -> 0 < f -> (forall e, format (bpow radix2 e * f)) \/ (forall e, format (bpow radix2 e / f)) ->
  trip f (trip f x) = trip f x.
Proof.
  intros Fx F Ff. destruct (Rtotal_order x 0) as [H|[-> | H]].
  - assert (E : trip f (trip f (- x)) = trip f (- x)) by (apply settles_pos; try assumption; [lra|apply generic_format_opp; exact Fx]).
    rewrite !trip_opp in E. lra.
  - unfold trip. rewrite Rmult_0_l, rn_zero. unfold Rdiv. rewrite Rmult_0_l, rn_zero, Rmult_0_l, rn_zero, Rmult_0_l, rn_zero. reflexivity.
  - apply settles_pos; assumption.
Qed.

Lemma settles f x : format x -> format f -> 0 < f -> trip f (trip f x) = trip f x.
Proof.
  intros Fx Ff F. apply settles_both; [exact Fx|exact F|]. left. intro e. rewrite Rmult_comm. apply mult_bpow_exact_FLX. exact Ff.
Qed.

Lemma trip_inverse f x : 0 < f -> trip (/ f) x = trip_back f x.
Proof. intro F. unfold trip, trip_back, Rdiv. rewrite Rinv_inv. reflexivity. Qed.

Lemma settles_back f x : format x -> format f -> 0 < f -> trip_back f (trip_back f x) = trip_back f x.
Proof.
  intros Fx Ff F. rewrite <- !trip_inverse by exact F. apply settles_both; [exact Fx|apply Rinv_0_lt_compat; exact F|].
  right. intro e. unfold Rdiv. rewrite Rinv_inv, Rmult_comm. apply mult_bpow_exact_FLX. exact Ff.
Qed.

(** What one way and back changes. *)
Lemma product_error a b : rn (a * b) = a * b + (rn (a * b) - a * b) /\ Rabs (rn (a * b) - a * b) <= Rabs (a * b) * bpow radix2 (- p).
Proof. split; [ring|apply rn_error]. Qed.

Lemma relative z : exists d, rn z = z * (1 + d) /\ Rabs d <= bpow radix2 (- p).
Proof.
  destruct (Req_dec z 0) as [-> |N].
  - exists 0. rewrite rn_zero, Rabs_R0. split; [ring|]. pose proof unit_small. lra.
  - exists ((rn z - z) / z). split; [field; exact N|]. unfold Rdiv. rewrite Rabs_mult, Rabs_inv.
    pose proof (rn_error z) as E. assert (A : 0 < Rabs z) by (apply Rabs_pos_lt; exact N).
    apply Rmult_le_reg_r with (Rabs z); [exact A|]. rewrite Rmult_assoc, Rinv_l by lra. lra.
Qed.

Lemma one_trip f g x : f <> 0 -> g = / f -> Rabs (rn (rn (x * f) * g) - x) <= Rabs x * (2 * bpow radix2 (- p) + bpow radix2 (- p) * bpow radix2 (- p)).
Proof.
  intros N ->. destruct (relative (x * f)) as (d & E & D). rewrite E. destruct (relative (x * f * (1 + d) * / f)) as (d' & E' & D'). rewrite E'.
  replace (x * f * (1 + d) * / f * (1 + d') - x) with (x * (d + d' + d * d')) by (field; exact N).
  rewrite Rabs_mult. apply Rmult_le_compat_l; [apply Rabs_pos|]. eapply Rle_trans; [apply Rabs_triang|]. rewrite Rabs_mult.
  pose proof (Rabs_triang d d'). pose proof (Rabs_pos d). pose proof (Rabs_pos d'). nra.
Qed.
End Precision.

From Coq Require Import String List ZArith Bool Reals QArith Qreals Lia Lra.
From Verif Require Import Base CosmoModel CosmoProofs WriterModel.
Import ListNotations.
Open Scope R_scope.

Lemma ln10_pos : 0 < ln 10.
Proof. rewrite <- ln_1. apply ln_increasing; lra. Qed.

Lemma pow10_pos : forall k, 0 < powerRZ 10 k.
Proof. intro. apply powerRZ_lt. lra. Qed.

Lemma pow10_exp : forall k, powerRZ 10 k = exp (IZR k * ln 10).
Proof. intro k. rewrite powerRZ_Rpower by lra. reflexivity. Qed.

Lemma Int_part_bounds : forall r, IZR (Int_part r) <= r < IZR (Int_part r) + 1.
Proof. intro r. destruct (base_Int_part r). lra. Qed.

Lemma exp_le : forall x y, x <= y -> exp x <= exp y.
Proof. intros x y [H|H]; [left; apply exp_increasing; exact H | right; congruence]. Qed.

(** The mantissa has five digits before the point. *)
Lemma mantissa : forall x, 0 < x -> 10000 <= x / powerRZ 10 (decade x) < 100000.
Proof.
  intros x Hx. unfold decade. set (g := ln x / ln 10).
  pose proof ln10_pos as L. pose proof (Int_part_bounds g) as [B1 B2].
  assert (Ex : x = exp (g * ln 10)).
  { unfold g. replace (ln x / ln 10 * ln 10) with (ln x) by (field; lra). symmetry. apply exp_ln. auto. }
  rewrite pow10_exp, minus_IZR.
  assert (E4 : 10000 = exp (4 * ln 10)).
  { rewrite <- pow10_exp. unfold powerRZ. change (Pos.to_nat 4) with 4%nat. cbn [pow]. lra. }
  assert (E5 : 100000 = exp (5 * ln 10)).
  { rewrite <- pow10_exp. unfold powerRZ. change (Pos.to_nat 5) with 5%nat. cbn [pow]. lra. }
  unfold Rdiv. rewrite Ex at 1 2. rewrite <- exp_Ropp, <- exp_plus. rewrite E4, E5. split.
  - apply exp_le. nra.
  - apply exp_increasing. nra.
Qed.

Lemma round5_error : forall x, 0 < x -> Rabs (round5 x - x) <= x / 20000.
Proof.
  intros x Hx. unfold round5. set (p := powerRZ 10 (decade x)).
  pose proof (pow10_pos (decade x)) as Hp. fold p in Hp.
  pose proof (mantissa x Hx) as Hm. fold p in Hm. set (q := x / p) in *.
  assert (Ex : x = q * p) by (unfold q; field; lra).
  pose proof (Int_part_bounds (q + / 2)) as [B1 B2].
  set (m := IZR (Int_part (q + / 2))) in *.
  rewrite Ex at 1. replace (m * p - q * p) with ((m - q) * p) by ring.
  rewrite Rabs_mult, (Rabs_right p) by lra.
  assert (Rabs (m - q) <= / 2) by (apply Rabs_le; lra).
  apply Rle_trans with (/ 2 * p); [apply Rmult_le_compat_r; lra|].
  rewrite Ex. nra.
Qed.

Lemma Int_part_IZR_half : forall z, Int_part (IZR z + / 2) = z.
Proof.
  intro z. pose proof (Int_part_bounds (IZR z + / 2)) as [B1 B2].
  assert (IZR (Int_part (IZR z + / 2)) < IZR (z + 1)) by (rewrite plus_IZR; lra).
  assert (IZR z < IZR (Int_part (IZR z + / 2) + 1)) by (rewrite plus_IZR; lra).
  apply lt_IZR in H, H0. lia.
Qed.

(** A five-digit number is not changed. *)
Lemma round5_exact : forall m k, (10000 <= m < 100000)%Z ->
  round5 (IZR m * powerRZ 10 k) = IZR m * powerRZ 10 k.
Proof.
  intros m k Hm. set (x := IZR m * powerRZ 10 k).
  assert (Hm0 : 10000 <= IZR m < 100000) by (split; [apply IZR_le | apply IZR_lt]; lia).
  assert (Hx : 0 < x) by (unfold x; apply Rmult_lt_0_compat; [lra|apply pow10_pos]).
  assert (Ed : decade x = k).
  { pose proof (mantissa x Hx) as M. pose proof (pow10_pos k) as Hk.
    pose proof (pow10_pos (decade x)) as Hd.
    assert (T : forall a b, powerRZ 10 a * 10 <= powerRZ 10 b \/ (b <= a)%Z).
    { intros a b. destruct (Z_le_gt_dec b a) as [H|H]; [right; exact H|left].
      rewrite !pow10_exp. replace 10 with (exp (ln 10)) at 2 by (apply exp_ln; lra).
      rewrite <- exp_plus. apply exp_le. pose proof ln10_pos.
      assert (IZR a + 1 <= IZR b) by (rewrite <- plus_IZR; apply IZR_le; lia). nra. }
    assert (Ex : x / powerRZ 10 (decade x) * powerRZ 10 (decade x) = IZR m * powerRZ 10 k).
    { change (x / powerRZ 10 (decade x) * powerRZ 10 (decade x) = x). field. lra. }
    set (q := x / powerRZ 10 (decade x)) in *.
    destruct (T (decade x) k) as [H1|H1].
    - exfalso. set (pd := powerRZ 10 (decade x)) in *. set (pk := powerRZ 10 k) in *.
      assert (10000 * (pd * 10) <= IZR m * pk) by (apply Rmult_le_compat; lra).
      assert (q * pd < 100000 * pd) by (apply Rmult_lt_compat_r; lra). lra.
    - destruct (T k (decade x)) as [H2|H2]; [exfalso|lia].
      set (pd := powerRZ 10 (decade x)) in *. set (pk := powerRZ 10 k) in *.
      assert (10000 * (pk * 10) <= q * pd) by (apply Rmult_le_compat; lra).
      assert (IZR m * pk < 100000 * pk) by (apply Rmult_lt_compat_r; lra). lra. }
  unfold round5. rewrite Ed.
  replace (x / powerRZ 10 k) with (IZR m) by (unfold x; field; apply Rgt_not_eq, pow10_pos).
  rewrite Int_part_IZR_half. reflexivity.
Qed.

Definition dist (unit b : R) : R := Rabs (ln (b / unit) / ln 10).

Lemma closest_spec : forall unit bases best,
  In (closest unit best bases) (best :: bases)
  /\ forall b, In b (best :: bases) -> dist unit (closest unit best bases) <= dist unit b.
Proof.
  induction bases as [|b t IH]; intro best; cbn [closest].
  - cbn. split; auto. intros b [<-|[]]. lra.
  - unfold Rltb. destruct (Rlt_dec _ _) as [H|H].
    + destruct (IH b) as (I1 & I2). split.
      * destruct I1 as [E|Hin]; [right; left; exact E | right; right; exact Hin].
      * intros c [<-|[<-|Hc]].
        -- apply Rle_trans with (dist unit b); [apply I2; left; reflexivity|]. unfold dist. lra.
        -- apply I2. left; reflexivity.
        -- apply I2. right; exact Hc.
    + destruct (IH best) as (I1 & I2). split.
      * destruct I1 as [E|Hin]; [left; exact E | right; right; exact Hin].
      * intros c [<-|[<-|Hc]].
        -- apply I2. left; reflexivity.
        -- apply Rle_trans with (dist unit best); [apply I2; left; reflexivity|]. unfold dist. lra.
        -- apply I2. right; exact Hc.
Qed.

Lemma spacing : forall l n d, 0 < l -> 0 < n -> 0 < d ->
  Rpower (l / Rpower n (1 / d)) d * n = Rpower l d.
Proof.
  intros l n d Hl Hn Hd. unfold Rdiv at 1.
  assert (Hp : 0 < Rpower n (1 / d)) by (unfold Rpower; apply exp_pos).
  rewrite <- Rpower_mult_distr; auto; [|apply Rinv_0_lt_compat; auto].
  rewrite <- Rpower_Ropp. rewrite Rpower_mult.
  replace (- (1 / d) * d) with (- (1)) by (field; lra).
  rewrite Rpower_Ropp, Rpower_1 by auto. field. lra.
Qed.

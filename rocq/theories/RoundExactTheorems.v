(** C111: with exact numbers the loops are those of VisModel.v. *)
From Coq Require Import List ZArith QArith Reals Lra Lia Bool Qreals.
From Verif Require Import Base BaseLemmas RoundModel RoundSpec RoundTheorems.
From Verif Require VisModel HsmlModel PowerModel CmapModel.
Import ListNotations.
Open Scope R_scope.

Definition R_less (x y : R) : bool := if Rlt_dec x y then true else false.
Definition R_less_eq (x y : R) : bool := if Rle_dec x y then true else false.
Definition R_equal (x y : R) : bool := if Req_EM_T x y then true else false.

(** Real numbers; [%] with the sign of the divisor, conversions to integers round towards zero. *)
Definition exact : arith :=
  mk_arith R IZR Q2R (fun x => x) (fun x => x) Rplus Rminus Rmult Rdiv
           (fun x y => x - y * IZR (Int_part (x / y))) sqrt
           (fun x => IZR (Int_part x)) (fun x => IZR (- Int_part (- x))) Rmax Rmin R_less R_less_eq R_equal
           VisModel.trunc VisModel.trunc.

Notation vpart := VisModel.part.
Definition of_vis (p : vpart) : rpart exact :=
  @mk_rpart exact (VisModel.p_x p) (VisModel.p_y p) (VisModel.p_z p) (VisModel.p_m p) (VisModel.p_h p).

Lemma int_part_IZR z : Int_part (IZR z) = z.
Proof.
  destruct (base_Int_part (IZR z)) as [H1 H2]. apply le_IZR in H1.
  assert (IZR z - 1 < IZR (Int_part (IZR z))) by lra. rewrite <- minus_IZR in H. apply lt_IZR in H. lia.
Qed.

Lemma trunc_IZR z : VisModel.trunc (IZR z) = z.
Proof.
  unfold VisModel.trunc, VisModel.floor, VisModel.ceil. destruct (Rle_dec 0 (IZR z)); [apply int_part_IZR|].
  rewrite <- opp_IZR, int_part_IZR. lia.
Qed.

Lemma lit_1 : Q2R 1 = 1. Proof. unfold Q2R. cbn. lra. Qed.
Lemma lit_0 : Q2R 0 = 0. Proof. unfold Q2R. cbn. lra. Qed.
Lemma lit_half : Q2R (1#2) = / 2. Proof. unfold Q2R. cbn. lra. Qed.
Lemma lit_quarter : Q2R (1#4) = / 4. Proof. unfold Q2R. cbn. lra. Qed.
Lemma lit_4 : Q2R 4 = 4. Proof. unfold Q2R. cbn. lra. Qed.

Ltac ops := cbn [num of_int lit single double add sub mul div modulo root floor ceil larger smaller less less_eq equal
                 int32 int exact r_x r_y r_z r_m r_h of_vis VisModel.p_x VisModel.p_y VisModel.p_z VisModel.p_m VisModel.p_h].

Lemma kernel2_exact r H : kernel2 exact (fun x => x) r H = VisModel.kernel2 r H.
Proof.
  unfold kernel2, VisModel.kernel2, one, zero. ops. rewrite lit_1, lit_0, lit_4. unfold R_less.
  destruct (Rlt_dec (r * (1 / H)) 1); [|reflexivity].
  replace (Q2R (222817109 # 100000000)) with VisModel.constant2 by (unfold VisModel.constant2, Q2R; cbn; lra). reflexivity.
Qed.

Lemma kernel3_exact r H : kernel3 exact r H = VisModel.kernel3 r H.
Proof.
  unfold kernel3, VisModel.kernel3, one, zero. ops. rewrite lit_1, lit_0, lit_4. unfold R_less.
  destruct (Rlt_dec (r * (1 / H)) 1); [|reflexivity].
  replace (Q2R 21 * Q2R (31830988618379067154 # 100000000000000000000) / Q2R 2) with VisModel.constant3
    by (unfold VisModel.constant3, Q2R; cbn; lra). reflexivity.
Qed.

Lemma gamma2_exact : gamma2 exact = VisModel.gamma2.
Proof. unfold gamma2, VisModel.gamma2. ops. unfold Q2R. cbn. lra. Qed.
Lemma gamma3_exact : gamma3 exact = VisModel.gamma3.
Proof. unfold gamma3, VisModel.gamma3. ops. unfold Q2R. cbn. lra. Qed.

Lemma shifts_exact box : shifts exact box = VisModel.shifts box.
Proof.
  unfold shifts, VisModel.shifts, zero, one. ops. rewrite lit_0, lit_1. unfold R_equal.
  destruct (Req_EM_T box 0); [reflexivity|]. rewrite <- plus_IZR, trunc_IZR. reflexivity.
Qed.
Lemma shifts_limited_exact box : shifts_limited exact box = VisModel.shifts_limited box.
Proof.
  unfold shifts_limited, VisModel.shifts_limited, zero. ops. rewrite lit_0. unfold R_equal.
  destruct (Req_EM_T box 0); reflexivity.
Qed.

Lemma cell_exact res x : cell_of exact res x = VisModel.floor (res * x).
Proof. unfold cell_of. ops. apply trunc_IZR. Qed.
Lemma span_exact res w : span exact res w = VisModel.trunc (1 + w * res).
Proof. unfold span, one. ops. rewrite lit_1. reflexivity. Qed.
Lemma outside_exact n c s : outside n c s = VisModel.misses n c s. Proof. reflexivity. Qed.
Lemma within_exact n c : within n c = VisModel.inside n c. Proof. reflexivity. Qed.
Lemma distance_exact n i x : distance exact (fun x => x) (1 / IZR n) i x = VisModel.offset n i x.
Proof. unfold distance, VisModel.offset, half. ops. rewrite lit_half. reflexivity. Qed.

Lemma over2_ext xs ys f g : (forall i j, f i j = g i j) -> over2 exact xs ys f = VisModel.spread2 xs ys g.
Proof.
  intro H. unfold over2, VisModel.spread2. apply flat_map_ext. intro i. apply map_ext. intro j. rewrite H. reflexivity.
Qed.
Lemma over3_ext xs ys zs f g : (forall i j k, f i j k = g i j k) -> over3 exact xs ys zs f = VisModel.spread3 xs ys zs g.
Proof.
  intro H. unfold over3, VisModel.spread3. apply flat_map_ext. intro i. apply flat_map_ext. intro j. apply map_ext. intro k.
  rewrite H. reflexivity.
Qed.

Lemma copies2_exact bx by_ f g p : (forall x y, f x y = g x y) -> copies2 exact bx by_ f (of_vis p) = VisModel.copies2 bx by_ g p.
Proof.
  intro H. unfold copies2, VisModel.copies2, shifted. rewrite !shifts_exact. apply flat_map_ext. intro sx. apply flat_map_ext.
  intro sy. ops. apply H.
Qed.
Lemma copies3_exact sh sh' bx by_ bz f g p : (forall b, sh b = sh' b) -> (forall x y z, f x y z = g x y z) ->
  copies3 exact sh bx by_ bz f (of_vis p) = VisModel.copies3 sh' bx by_ bz g p.
Proof.
  intros S H. unfold copies3, VisModel.copies3, shifted. rewrite !S. apply flat_map_ext. intro sx. apply flat_map_ext.
  intro sy. apply flat_map_ext. intro sz. ops. apply H.
Qed.

Lemma fold_sum {B} (f : B -> R) l : forall t, fold_left (fun t x => t + f x) l t = t + VisModel.sumR (map f l).
Proof.
  induction l as [|x l IH]; intro t; cbn [fold_left map VisModel.sumR fold_right]; [lra|].
  rewrite IH. unfold VisModel.sumR. lra.
Qed.
Lemma sumR_app l l' : VisModel.sumR (l ++ l') = VisModel.sumR l + VisModel.sumR l'.
Proof. unfold VisModel.sumR. induction l as [|x l IH]; cbn [app fold_right]; [lra|rewrite IH; lra]. Qed.
Lemma fold_sum2 {B C} (f : B -> C -> R) l l' : forall t,
  fold_left (fun t x => fold_left (fun t y => t + f x y) l' t) l t = t + VisModel.sumR (flat_map (fun x => map (f x) l') l).
Proof.
  induction l as [|x l IH]; intro t; cbn [fold_left flat_map]; [unfold VisModel.sumR; cbn; lra|].
  rewrite IH, fold_sum, sumR_app. lra.
Qed.

Lemma fast_at_exact n m h x y : fast_at exact n m h x y = VisModel.fast_at n m h x y.
Proof.
  unfold fast_at, VisModel.fast_at. cbv zeta. ops. rewrite gamma2_exact, !cell_exact, !span_exact.
  rewrite !outside_exact, !within_exact, mult_IZR. destruct (_ || _); [reflexivity|].
  destruct (_ <=? 1)%Z; [reflexivity|]. apply over2_ext. intros i j. unfold one. ops.
  rewrite lit_1, kernel2_exact, !distance_exact. reflexivity.
Qed.

Lemma value_exact n w x y i j :
  kernel2 exact (fun x => x) (sqrt (square_of exact (distance exact (fun x => x) (1 / IZR n) i x)
                                 + square_of exact (distance exact (fun x => x) (1 / IZR n) j y))) w
  = VisModel.kernel_at n w x y i j.
Proof. rewrite kernel2_exact, !distance_exact. reflexivity. Qed.

Theorem C111_exact_fast : forall n bx by_ p, fast_part exact n bx by_ (of_vis p) = VisModel.fast_part n bx by_ p.
Proof. intros. unfold fast_part, VisModel.fast_part. apply copies2_exact. intros. apply fast_at_exact. Qed.

Theorem C111_exact_histogram : forall n bx by_ p, histogram_part exact n bx by_ (of_vis p) = VisModel.histogram_part n bx by_ p.
Proof.
  intros. unfold histogram_part, VisModel.histogram_part. apply copies2_exact. intros x y. unfold histogram_at, VisModel.histogram_at.
  cbv zeta. ops. rewrite !cell_exact. reflexivity.
Qed.

Theorem C111_exact_renormalised : forall n bx by_ p,
  renormalised_part exact n bx by_ (of_vis p) = VisModel.renormalised_part n bx by_ p.
Proof.
  intros. unfold renormalised_part, VisModel.renormalised_part. apply copies2_exact. intros x y.
  unfold renormalised_at, VisModel.renormalised_at. cbv zeta. ops. unfold one. ops. rewrite lit_1.
  rewrite gamma2_exact, !cell_exact, !span_exact, !outside_exact, !within_exact. destruct (_ || _); [reflexivity|].
  destruct (_ <=? 1)%Z; [reflexivity|]. apply over2_ext. intros i j. rewrite value_exact. f_equal. f_equal. f_equal.
  unfold VisModel.normalisation. rewrite (fold_sum2 (fun a b => kernel2 exact (fun x => x) (sqrt (square_of exact (distance exact (fun x => x) (1 / IZR n) a x)
                                 + square_of exact (distance exact (fun x => x) (1 / IZR n) b y))) (VisModel.gamma2 * VisModel.p_h p))).
  unfold zero. ops. rewrite lit_0, Rplus_0_l. f_equal. apply flat_map_ext. intro a. apply map_ext. intro b. apply value_exact.
Qed.

Theorem C111_exact_reference : forall n bx by_ p, reference_part exact n bx by_ (of_vis p) = VisModel.reference_part n bx by_ p.
Proof.
  intros. unfold reference_part, VisModel.reference_part. rewrite !shifts_exact. apply flat_map_ext. intro sx.
  unfold shifted at 1. ops. generalize (VisModel.shifts by_). intro sh. induction sh as [|sy sh IH]; [reflexivity|].
  cbn [reference_loop VisModel.reference_loop]. cbv zeta. change (shifted exact (VisModel.p_y p) sy by_) with (VisModel.p_y p + IZR sy * by_). ops.
  rewrite gamma2_exact, !cell_exact, !span_exact, !outside_exact. rewrite IH. clear IH. destruct (_ || _); [reflexivity|].
  destruct (_ <=? 2)%Z; [reflexivity|]. f_equal. apply over2_ext. intros i j. unfold one. ops. rewrite lit_1, value_exact. reflexivity.
Qed.

Lemma sumR_ext {B} (f g : B -> R) l : (forall x, f x = g x) -> VisModel.sumR (map f l) = VisModel.sumR (map g l).
Proof. intro H. f_equal. apply map_ext. exact H. Qed.

Theorem C111_exact_subsampled : forall evals dither n bx by_ p,
  subsampled_part exact evals dither n bx by_ (of_vis p) = VisModel.subsampled_part evals dither n bx by_ p.
Proof.
  intros. unfold subsampled_part, VisModel.subsampled_part. apply copies2_exact. intros x y.
  unfold subsampled_at, VisModel.subsampled_at. cbv zeta. ops. unfold one. ops. rewrite lit_1, lit_quarter.
  rewrite gamma2_exact, !cell_exact, !outside_exact, !within_exact. destruct (_ || _); [reflexivity|].
  unfold R_less_eq. destruct (Rle_dec _ _) as [Hw|Hw].
  - unfold R_less. destruct (negb _ && _); [reflexivity|]. apply flat_map_ext. intro a. apply flat_map_ext. intro b.
    assert (C : forall z q, dither_cell exact dither (IZR n) (VisModel.gamma2 * VisModel.p_h p) z q
                          = VisModel.dither_pixel n dither (VisModel.gamma2 * VisModel.p_h p) z q).
    { intros z q. unfold dither_cell, VisModel.dither_pixel, one. rewrite cell_exact. ops. rewrite lit_1. reflexivity. }
    rewrite !C, !within_exact. destruct (_ && _); [|reflexivity].
    assert (D : forall a b, dither_raw exact dither a b = VisModel.dither_raw dither a b).
    { intros. unfold dither_raw, VisModel.dither_raw, half, square_of. ops. rewrite lit_half, kernel2_exact. reflexivity. }
    assert (T : dither_total exact dither = VisModel.dither_sum dither).
    { unfold dither_total, VisModel.dither_sum. ops. rewrite (fold_sum2 (fun a b => dither_raw exact dither a b)).
      unfold zero. ops. rewrite lit_0, Rplus_0_l. f_equal. apply flat_map_ext. intro c. apply map_ext. apply D. }
    unfold dithered, VisModel.dithered. ops. rewrite D, T. reflexivity.
  - rewrite trunc_IZR. apply over2_ext. intros i j. f_equal. f_equal. unfold subsample, VisModel.subsample. cbv zeta. ops.
    set (f := Z.max 1 _).
    rewrite (fold_sum2 (fun a b => kernel2 exact (fun z => z)
      (sqrt (square_of exact ((IZR i + (IZR a + half exact) * (one exact / IZR f)) * (1 / IZR n) - x)
             + square_of exact ((IZR j + (IZR b + half exact) * (one exact / IZR f)) * (1 / IZR n) - y))) (VisModel.gamma2 * VisModel.p_h p))).
    unfold zero, half, one. ops. rewrite lit_0, lit_1, lit_half, Rplus_0_l. f_equal. apply flat_map_ext. intro a. apply map_ext. intro b.
    rewrite kernel2_exact. reflexivity.
Qed.

Theorem C111_exact_gpu : forall n bx by_ ps t,
  gpu_thread exact n bx by_ (map of_vis ps) t = VisModel.gpu_thread n bx by_ ps t.
Proof.
  intros n bx by_ ps [[i dx] dy]. unfold gpu_thread, VisModel.gpu_thread. rewrite nth_error_map.
  destruct (nth_error ps (Z.to_nat i)) as [p|]; [|reflexivity]. cbn [option_map]. unfold one. ops. rewrite lit_1. apply fast_at_exact.
Qed.

Theorem C111_exact_slice : forall n z_slice bx by_ bz p,
  slice_part exact n z_slice bx by_ bz (of_vis p) = VisModel.slice_part n z_slice bx by_ bz p.
Proof.
  intros. unfold slice_part, VisModel.slice_part. apply copies3_exact; [apply shifts_exact|]. intros x y z.
  unfold slice_at, VisModel.slice_at. cbv zeta. ops. rewrite gamma3_exact, !cell_exact, !span_exact, !outside_exact.
  unfold R_less. unfold square_of at 1. ops. destruct (_ || _ || _); [reflexivity|]. apply over2_ext. intros i j. unfold one. ops.
  rewrite lit_1, kernel3_exact, !distance_exact. reflexivity.
Qed.

Lemma voxel_exact nz n m h x y z : voxel_at exact nz n m h x y z = VisModel.voxel_at nz n m h x y z.
Proof.
  unfold voxel_at, VisModel.voxel_at. cbv zeta. ops. rewrite gamma3_exact, !cell_exact, !span_exact, !outside_exact, !within_exact.
  destruct (_ || _ || _); [reflexivity|]. unfold R_less, one, half. ops. rewrite lit_1, lit_half.
  destruct (_ || _); [reflexivity|]. apply over3_ext. intros i j k. rewrite kernel3_exact, !distance_exact. reflexivity.
Qed.

Theorem C111_exact_volume : forall n bx by_ bz p,
  volume_part exact n bx by_ bz (of_vis p) = VisModel.volume_part n bx by_ bz p
  /\ forall ratio, limited_part exact n ratio bx by_ bz (of_vis p) = VisModel.limited_part n ratio bx by_ bz p.
Proof.
  intros. split.
  - apply copies3_exact; [apply shifts_exact|]. intros. apply voxel_exact.
  - intro ratio. apply copies3_exact; [apply shifts_limited_exact|]. intros. apply voxel_exact.
Qed.

(** The deposition and the lookup. *)
Theorem C111_exact_deposit : forall n fold bx by_ bz p,
  deposit_part exact n fold bx by_ bz (of_vis p) = PowerModel.deposit_part n fold bx by_ bz p.
Proof.
  intros. unfold deposit_part, PowerModel.deposit_part. ops. cbv zeta.
  assert (E : forall x b, deposit_cell exact (IZR n) fold x b = PowerModel.deposit_index n fold b x).
  { intros x b. unfold deposit_cell, PowerModel.deposit_index, one. ops. rewrite lit_1. reflexivity. }
  rewrite !E. reflexivity.
Qed.

Theorem C111_exact_lookup : forall n v, lookup_index exact n v = CmapModel.position_of n v.
Proof.
  intros. unfold lookup_index, CmapModel.position_of, CmapModel.clamp, one, zero. ops. rewrite lit_0, lit_1. reflexivity.
Qed.

Print Assumptions C111_exact_fast.
Print Assumptions C111_exact_deposit.
Print Assumptions C111_exact_lookup.
Print Assumptions C111_exact_histogram.
Print Assumptions C111_exact_renormalised.
Print Assumptions C111_exact_reference.
Print Assumptions C111_exact_subsampled.
Print Assumptions C111_exact_gpu.
Print Assumptions C111_exact_slice.
Print Assumptions C111_exact_volume.

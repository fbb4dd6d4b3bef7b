(** C118: the 32-bit indices of pixels. *)
From Coq Require Import List ZArith QArith Reals Lra Lia Bool.
From Verif Require Import Base BaseLemmas RoundModel RoundSpec RoundTheorems RoundExactTheorems NarrowModel NarrowSpec NarrowProofs.
From Verif Require VisModel VisSumProofs.
Import ListNotations.
Open Scope Z_scope.

(** * Any arithmetic *)

Section Any.
Variable A : arith.
Variable narrow : Z -> Z.
Hypothesis N : keeps_outside narrow.
Notation conv := (fun x => narrow (int32 A x)).
Notation B := (with_int32 A (fun x => narrow (int32 A x))).

Theorem C118_fast : forall n bx by_ p, small n (radius A (gamma2 A) (r_h p) (single A (of_int A n))) ->
  fast_part B n bx by_ (same_part conv p) = fast_part A n bx by_ p.
Proof. intros n bx by_ p H. apply copies2_narrow. intros x y. now apply fast_at_narrow. Qed.

Theorem C118_histogram : forall n bx by_ p, 0 <= n <= 2147483647 ->
  histogram_part B n bx by_ (same_part conv p) = histogram_part A n bx by_ p.
Proof. intros n bx by_ p H. apply copies2_narrow. intros x y. now apply histogram_at_narrow. Qed.

Theorem C118_renormalised : forall n bx by_ p, small n (radius A (gamma2 A) (r_h p) (single A (of_int A n))) ->
  renormalised_part B n bx by_ (same_part conv p) = renormalised_part A n bx by_ p.
Proof. intros n bx by_ p H. apply copies2_narrow. intros x y. now apply renormalised_at_narrow. Qed.

Theorem C118_reference : forall n bx by_ p, small n (radius A (gamma2 A) (r_h p) (double A (of_int A n))) ->
  reference_part B n bx by_ (same_part conv p) = reference_part A n bx by_ p.
Proof.
  intros n bx by_ p H. unfold reference_part. apply flat_map_ext_in. intros sx. apply (reference_loop_narrow A narrow N). exact H.
Qed.

Theorem C118_subsampled : forall e d n bx by_ p,
  let support := add A (lit A 1) (mul A (double A (mul A (gamma2 A) (r_h p))) (double A (of_int A n))) in
  small n (int32 A support) -> fits (int32 A (ceil A (div A (double A (of_int A e)) support))) ->
  subsampled_part B e d n bx by_ (same_part conv p) = subsampled_part A e d n bx by_ p.
Proof. intros e d n bx by_ p support H1 H2. apply copies2_narrow. intros x y. now apply subsampled_at_narrow. Qed.

Theorem C118_gpu : forall n bx by_ ps t, Forall (fun p => small n (radius A (gamma2 A) (r_h p) (single A (of_int A n)))) ps ->
  gpu_thread B n bx by_ (map (same_part conv) ps) t = gpu_thread A n bx by_ ps t.
Proof.
  intros n bx by_ ps [[i dx] dy] H. unfold gpu_thread. rewrite nth_error_map.
  destruct (nth_error ps (Z.to_nat i)) as [p|] eqn:E; [|reflexivity]. cbn [option_map].
  apply nth_error_In in E. rewrite Forall_forall in H. apply (fast_at_narrow A narrow N n (r_m p) (r_h p)). exact (H _ E).
Qed.

Theorem C118_slice : forall n z_slice bx by_ bz p, small n (radius A (gamma3 A) (r_h p) (single A (of_int A n))) ->
  slice_part B n z_slice bx by_ bz (same_part conv p) = slice_part A n z_slice bx by_ bz p.
Proof. intros n zs bx by_ bz p H. apply copies3_narrow. intros x y z. now apply slice_at_narrow. Qed.

Theorem C118_volume : forall n bx by_ bz p, small n (radius A (gamma3 A) (r_h p) (single A (of_int A n))) ->
  volume_part B n bx by_ bz (same_part conv p) = volume_part A n bx by_ bz p
  /\ forall ratio, small (n / ratio) (radius A (gamma3 A) (r_h p) (single A (of_int A (n / ratio)))) ->
     limited_part B n ratio bx by_ bz (same_part conv p) = limited_part A n ratio bx by_ bz p.
Proof.
  intros n bx by_ bz p H. split.
  - apply copies3_narrow. intros x y z. now apply voxel_at_narrow.
  - intros ratio H'. apply copies3_narrow. intros x y z. now apply voxel_at_narrow.
Qed.

End Any.

(** * Real numbers *)

Lemma trunc_between x : (0 <= x)%R -> 0 <= VisModel.trunc x /\ forall z, (x < IZR z)%R -> VisModel.trunc x < z.
Proof.
  intros H. rewrite VisSumProofs.trunc_floor by exact H. split; [apply VisSumProofs.floor_le; exact H|].
  intros z Hz. now apply VisSumProofs.floor_lt.
Qed.

Lemma small_real gamma h n : (0 <= gamma)%R -> (0 <= h)%R -> 0 <= n -> (1 + gamma * h * IZR n + IZR n < 2147483648)%R ->
  small n (VisModel.trunc (1 + gamma * h * IZR n)).
Proof.
  intros Hg Hh Hn H. assert (0 <= IZR n)%R by (apply IZR_le; lia). assert (0 <= gamma * h * IZR n)%R by (apply Rmult_le_pos; [now apply Rmult_le_pos|lra]).
  destruct (trunc_between (1 + gamma * h * IZR n)) as [T1 T2]; [lra|].
  assert (n < 2147483648) by (apply lt_IZR; lra).
  specialize (T2 (2147483648 - n)). rewrite minus_IZR in T2. unfold small. split; [lia|]. split; [lia|].
  assert (VisModel.trunc (1 + gamma * h * IZR n) < 2147483648 - n) by (apply T2; lra). lia.
Qed.

(** If the kernel and the image together have less than 2^31 pixels, everything is drawn as with unlimited integers, however far
    away the particles are. *)
Theorem C118_exact : forall narrow n p, keeps_outside narrow -> 0 <= n -> (0 <= VisModel.p_h p)%R ->
  (1 + 1936492 / 1000000 * VisModel.p_h p * IZR n + IZR n < 2147483648)%R ->
  let B := with_int32 exact (fun x => narrow (VisModel.trunc x)) in
  let q : rpart B := same_part (A := exact) (fun x => narrow (VisModel.trunc x)) (of_vis p) in
  (forall bx by_, fast_part B n bx by_ q = VisModel.fast_part n bx by_ p
               /\ histogram_part B n bx by_ q = VisModel.histogram_part n bx by_ p
               /\ renormalised_part B n bx by_ q = VisModel.renormalised_part n bx by_ p
               /\ reference_part B n bx by_ q = VisModel.reference_part n bx by_ p
               /\ forall e d, 0 <= e <= 2147483647 -> subsampled_part B e d n bx by_ q = VisModel.subsampled_part e d n bx by_ p) /\
  (forall z_slice bx by_ bz, slice_part B n z_slice bx by_ bz q = VisModel.slice_part n z_slice bx by_ bz p
                          /\ volume_part B n bx by_ bz q = VisModel.volume_part n bx by_ bz p).
Proof.
  intros narrow n p N Hn Hh H. cbv zeta. assert (Hn' : (0 <= IZR n)%R) by (apply IZR_le; lia).
  assert (P : (0 <= VisModel.p_h p * IZR n)%R) by (now apply Rmult_le_pos).
  assert (S2 : small n (radius exact (gamma2 exact) (r_h (of_vis p)) (IZR n))).
  { unfold radius. ops. rewrite gamma2_exact, lit_1. apply small_real; [unfold VisModel.gamma2; lra|exact Hh|exact Hn|].
    unfold VisModel.gamma2. nra. }
  assert (S3 : small n (radius exact (gamma3 exact) (r_h (of_vis p)) (IZR n))).
  { unfold radius. ops. rewrite gamma3_exact, lit_1. apply small_real; [unfold VisModel.gamma3; lra|exact Hh|exact Hn|].
    unfold VisModel.gamma3. exact H. }
  split.
  - intros bx by_. split; [|split; [|split; [|split]]].
    + rewrite <- C111_exact_fast. apply (C118_fast exact narrow N). exact S2.
    + rewrite <- C111_exact_histogram. apply (C118_histogram exact narrow N). unfold small in S2. lia.
    + rewrite <- C111_exact_renormalised. apply (C118_renormalised exact narrow N). exact S2.
    + rewrite <- C111_exact_reference. apply (C118_reference exact narrow N). exact S2.
    + intros e d He. rewrite <- C111_exact_subsampled. apply (C118_subsampled exact narrow N); [exact S2|].
      ops. rewrite gamma2_exact, lit_1, trunc_IZR.
      set (f := (1 + VisModel.gamma2 * VisModel.p_h p * IZR n)%R).
      assert (Hf : (1 <= f)%R) by (unfold f, VisModel.gamma2; nra).
      assert (He' : (0 <= IZR e)%R) by (apply IZR_le; lia).
      assert (Hq : (0 <= IZR e / f <= IZR e)%R).
      { split; [apply Rmult_le_pos; [exact He'|]; left; apply Rinv_0_lt_compat; lra|].
        apply Rmult_le_reg_r with f; [lra|]. unfold Rdiv. rewrite Rmult_assoc, Rinv_l by lra. nra. }
      destruct (base_Int_part (- (IZR e / f))) as [B1 B2]. set (k := Int_part (- (IZR e / f))) in *.
      assert (K1 : k < 1) by (apply lt_IZR; lra). assert (K2 : - e - 1 < k).
      { apply lt_IZR. rewrite minus_IZR, opp_IZR. lra. }
      unfold fits. lia.
  - intros zs bx by_ bz. split.
    + rewrite <- C111_exact_slice. apply (C118_slice exact narrow N). exact S3.
    + rewrite <- (proj1 (C111_exact_volume n bx by_ bz p)). exact (proj1 (C118_volume exact narrow N n bx by_ bz (of_vis p) S3)).
Qed.

(** * Conversions *)

Theorem C118_conversions : keeps_outside smallest /\ keeps_outside saturated /\ ~ keeps_outside lowest_bits.
Proof.
  split; [|split].
  - intros z. unfold fits, smallest. change (- 2 ^ 31) with (- 2147483648). change (2 ^ 31) with 2147483648.
    destruct (Z.leb_spec (- 2147483648) z), (Z.ltb_spec z 2147483648); cbn [andb]; lia.
  - intros z. unfold fits, saturated. change (- 2 ^ 31) with (- 2147483648). change (2 ^ 31 - 1) with 2147483647. lia.
  - intros H. destruct (H 4294967296) as [_ [E|E]]; [unfold fits; lia|vm_compute in E; discriminate|vm_compute in E; discriminate].
Qed.

Lemma floor_at z (x : R) : x = IZR z -> VisModel.floor x = z.
Proof. intros ->. apply int_part_IZR. Qed.

Lemma trunc_one : VisModel.trunc 1 = 1.
Proof. exact (trunc_IZR 1). Qed.

(** One pixel. *)
Lemma point_fast (A : arith) (narrow : Z -> Z) n m h x y :
  let B := with_int32 A (fun x => narrow (int32 A x)) in
  narrow (cell_of A (double A (of_int A n)) x) = 0 -> narrow (cell_of A (double A (of_int A n)) y) = 0 ->
  narrow (span A (single A (of_int A n)) (mul A (gamma2 A) h)) = 1 -> 1 <= n ->
  fast_at B n m h x y = [([0; 0], mul A m (of_int A (n * n)))].
Proof.
  intros B H1 H2 H3 Hn. unfold fast_at. cbv zeta.
  change (cell_of B (double B (of_int B n)) x) with (narrow (cell_of A (double A (of_int A n)) x)).
  change (cell_of B (double B (of_int B n)) y) with (narrow (cell_of A (double A (of_int A n)) y)).
  change (span B (single B (of_int B n)) (mul B (gamma2 B) h)) with (narrow (span A (single A (of_int A n)) (mul A (gamma2 A) h))).
  rewrite H1, H2, H3. assert (E : outside n 0 1 = false) by (unfold outside; destruct (Z.ltb_spec (n - 1) (0 - 1)); [lia|reflexivity]).
  assert (W : within n 0 = true) by (unfold within; destruct (Z.leb_spec 0 (n - 1)); [reflexivity|lia]).
  rewrite E, W. reflexivity.
Qed.

Lemma point_histogram (A : arith) (narrow : Z -> Z) n m x y :
  let B := with_int32 A (fun x => narrow (int32 A x)) in
  narrow (cell_of A (double A (of_int A n)) x) = 0 -> narrow (cell_of A (double A (of_int A n)) y) = 0 -> 1 <= n ->
  histogram_at B n m x y = [([0; 0], mul A (double A m) (mul A (double A (of_int A n)) (double A (of_int A n))))].
Proof.
  intros B H1 H2 Hn. unfold histogram_at. cbv zeta.
  change (cell_of B (double B (of_int B n)) x) with (narrow (cell_of A (double A (of_int A n)) x)).
  change (cell_of B (double B (of_int B n)) y) with (narrow (cell_of A (double A (of_int A n)) y)). rewrite H1, H2.
  destruct (Z.ltb_spec (n - 1) 0); [lia|]. reflexivity.
Qed.

(** A particle far away from the image is drawn if the lowest bits are taken: 2^22 widths away in an image of 1024 pixels. *)
Theorem C118_lowest_bits_refuted : exists n p bx by_,
  let B := with_int32 exact (fun x => lowest_bits (VisModel.trunc x)) in
  let q : rpart B := same_part (A := exact) (fun x => lowest_bits (VisModel.trunc x)) (of_vis p) in
  (VisModel.p_x p = 4194304)%R /\ VisModel.p_h p = 0%R /\
  VisModel.fast_part n bx by_ p = [] /\ VisModel.histogram_part n bx by_ p = [] /\
  fast_part B n bx by_ q = [([0; 0], (VisModel.p_m p * 1048576)%R)] /\
  histogram_part B n bx by_ q = [([0; 0], (VisModel.p_m p * (1024 * 1024))%R)].
Proof.
  exists 1024, (VisModel.mkpart 4194304 0 0 1 0), 0%R, 0%R. cbv zeta. cbn [VisModel.p_x VisModel.p_h VisModel.p_m].
  split; [reflexivity|]. split; [reflexivity|].
  assert (S0 : VisModel.shifts 0 = [0]) by (unfold VisModel.shifts; destruct (Req_EM_T 0 0) as [_|E]; [reflexivity|now destruct E]).
  assert (F1 : VisModel.floor (IZR 1024 * 4194304) = 4294967296) by (apply floor_at; lra).
  assert (F2 : VisModel.floor (IZR 1024 * 0) = 0) by (apply floor_at; lra).
  assert (S1 : shifts exact 0%R = [0]) by (rewrite shifts_exact; exact S0).
  split; [|split; [|split]].
  - unfold VisModel.fast_part, VisModel.copies2. rewrite S0. cbn [flat_map app]. cbn [VisModel.p_x VisModel.p_y VisModel.p_m VisModel.p_h].
    replace (4194304 + IZR 0 * 0)%R with 4194304%R by lra. replace (0 + IZR 0 * 0)%R with 0%R by lra.
    unfold VisModel.fast_at. cbv zeta. rewrite F1, F2. replace (1 + VisModel.gamma2 * 0 * IZR 1024)%R with 1%R by lra. rewrite trunc_one. reflexivity.
  - unfold VisModel.histogram_part, VisModel.copies2. rewrite S0. cbn [flat_map app]. cbn [VisModel.p_x VisModel.p_y VisModel.p_m VisModel.p_h].
    replace (4194304 + IZR 0 * 0)%R with 4194304%R by lra. replace (0 + IZR 0 * 0)%R with 0%R by lra.
    unfold VisModel.histogram_at. cbv zeta. rewrite F1, F2. reflexivity.
  - unfold fast_part, copies2. change (shifts (with_int32 exact (fun x => lowest_bits (VisModel.trunc x))) 0%R) with (shifts exact 0%R).
    rewrite S1. cbn [flat_map]. rewrite !app_nil_r. apply (point_fast exact lowest_bits 1024 1%R 0%R).
    + rewrite cell_exact. match goal with |- lowest_bits (VisModel.floor ?t) = 0 => replace t with (1024 * 4194304)%R by (change t with (1024 * (4194304 + 0 * 0))%R; lra) end. rewrite F1. reflexivity.
    + rewrite cell_exact. match goal with |- lowest_bits (VisModel.floor ?t) = 0 => replace t with (1024 * 0)%R by (change t with (1024 * (0 + 0 * 0))%R; lra) end. rewrite F2. reflexivity.
    + rewrite span_exact. ops. match goal with |- lowest_bits (VisModel.trunc ?t) = 1 => replace t with 1%R by lra end. rewrite trunc_one. reflexivity.
    + lia.
  - unfold histogram_part, copies2. change (shifts (with_int32 exact (fun x => lowest_bits (VisModel.trunc x))) 0%R) with (shifts exact 0%R).
    rewrite S1. cbn [flat_map]. rewrite !app_nil_r. apply (point_histogram exact lowest_bits 1024 1%R).
    + rewrite cell_exact. match goal with |- lowest_bits (VisModel.floor ?t) = 0 => replace t with (1024 * 4194304)%R by (change t with (1024 * (4194304 + 0 * 0))%R; lra) end. rewrite F1. reflexivity.
    + rewrite cell_exact. match goal with |- lowest_bits (VisModel.floor ?t) = 0 => replace t with (1024 * 0)%R by (change t with (1024 * (0 + 0 * 0))%R; lra) end. rewrite F2. reflexivity.
    + lia.
Qed.

(** A kernel that does not fit is not drawn, where unlimited integers draw it, if the smallest integer is taken. *)
Theorem C118_large_kernel_refuted : exists n p,
  let B := with_int32 exact (fun x => smallest (VisModel.trunc x)) in
  let q : rpart B := same_part (A := exact) (fun x => smallest (VisModel.trunc x)) (of_vis p) in
  keeps_outside smallest /\ fast_part B n 0%R 0%R q = [] /\
  exists v, VisModel.fast_part n 0%R 0%R p = [([0; 0], v)] /\ (0 < v)%R.
Proof.
  set (h := (4294967296 / VisModel.gamma2)%R).
  exists 1, (VisModel.mkpart (1/2) (1/2) 0 1 h). cbv zeta. split; [apply C118_conversions|].
  assert (G : (0 < VisModel.gamma2)%R) by (unfold VisModel.gamma2; lra).
  assert (S0 : VisModel.shifts 0 = [0]) by (unfold VisModel.shifts; destruct (Req_EM_T 0 0) as [_|E]; [reflexivity|now destruct E]).
  assert (S1 : shifts exact 0%R = [0]) by (rewrite shifts_exact; exact S0).
  assert (F : VisModel.floor (1 * (1 / 2)) = 0) by (apply VisSumProofs.floor_unique; lra).
  assert (W : (VisModel.gamma2 * h = 4294967296)%R) by (unfold h; field; lra).
  assert (T : VisModel.trunc (1 + VisModel.gamma2 * h * 1) = 4294967297).
  { rewrite W. rewrite <- (trunc_IZR 4294967297). f_equal. lra. }
  split.
  - unfold fast_part, copies2. change (shifts (with_int32 exact (fun x => smallest (VisModel.trunc x))) 0%R) with (shifts exact 0%R).
    rewrite S1. cbn [flat_map]. rewrite !app_nil_r. unfold fast_at. cbv zeta.
    set (B := with_int32 exact (fun x => smallest (VisModel.trunc x))). set (q := same_part _ _).
    change (cell_of B (double B (of_int B 1)) (shifted B (r_x q) 0 0%R)) with (smallest (cell_of exact 1%R (1 / 2 + 0 * 0)%R)).
    change (cell_of B (double B (of_int B 1)) (shifted B (r_y q) 0 0%R)) with (smallest (cell_of exact 1%R (1 / 2 + 0 * 0)%R)).
    change (span B (single B (of_int B 1)) (mul B (gamma2 B) (r_h q))) with (smallest (span exact 1%R (gamma2 exact * h)%R)).
    rewrite cell_exact, span_exact, gamma2_exact, T. replace (1 * (1 / 2 + 0 * 0))%R with (1 * (1 / 2))%R by lra. rewrite F. reflexivity.
  - unfold VisModel.fast_part, VisModel.copies2. rewrite S0. cbn [flat_map]. rewrite !app_nil_r. cbn [VisModel.p_x VisModel.p_y VisModel.p_m VisModel.p_h].
    replace (1 / 2 + 0 * 0)%R with (1 / 2)%R by lra. unfold VisModel.fast_at. cbv zeta. rewrite F, T.
    eexists. split; [reflexivity|]. cbv beta zeta. unfold VisModel.offset.
    change (IZR (Z.max 0 (0 - 4294967297) + Z.of_nat 0)) with 0%R.
    replace ((0 + / 2) * (1 / 1) - 1 / 2)%R with 0%R by lra. replace (0 * 0 + 0 * 0)%R with 0%R by lra. rewrite sqrt_0.
    unfold VisModel.kernel2. rewrite W. cbv zeta. destruct (Rlt_dec _ 1) as [L|L]; [|exfalso; apply L; lra].
    rewrite Rmult_0_l. unfold VisModel.constant2. rewrite Rmax_left by lra. lra.
Qed.

(** An image of 1024 pixels: the index of the particle is 2^33 + 102, which does not fit. *)
Example C118_exact_example :
  let p := VisModel.mkpart (8388608 + 1 / 10) (1 / 10) 0 1 (1 / 10) in
  keeps_outside smallest /\ 0 <= 1024 /\ (0 <= VisModel.p_h p)%R
  /\ (1 + 1936492 / 1000000 * VisModel.p_h p * IZR 1024 + IZR 1024 < 2147483648)%R
  /\ ~ fits (VisModel.floor (1024 * VisModel.p_x p)) /\ smallest (VisModel.floor (1024 * VisModel.p_x p)) <> VisModel.floor (1024 * VisModel.p_x p).
Proof.
  cbv zeta. cbn [VisModel.p_x VisModel.p_h]. split; [apply C118_conversions|]. split; [lia|]. split; [lra|]. split; [lra|].
  assert (E : VisModel.floor (1024 * (8388608 + 1 / 10)) = 8589934694) by (apply VisSumProofs.floor_unique; lra). rewrite E.
  split; [unfold fits; lia|discriminate].
Qed.

Print Assumptions C118_fast.
Print Assumptions C118_histogram.
Print Assumptions C118_renormalised.
Print Assumptions C118_reference.
Print Assumptions C118_subsampled.
Print Assumptions C118_gpu.
Print Assumptions C118_slice.
Print Assumptions C118_volume.
Print Assumptions C118_exact.
Print Assumptions C118_conversions.
Print Assumptions C118_lowest_bits_refuted.
Print Assumptions C118_large_kernel_refuted.

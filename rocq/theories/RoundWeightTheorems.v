(** C115: weights times a power of two; sums that depend on the threads. *)
From Coq Require Import List ZArith QArith Lia Lra Bool Floats.SpecFloat Reals Permutation.
From Flocq Require Import Core.
From Verif Require Import Base BaseLemmas RoundModel RoundSpec RoundFloatModel RoundTripProofs RoundSumModel RoundSumSpec RoundSumProofs RoundSumTheorems.
From Verif Require VisModel.
Import ListNotations.
Open Scope R_scope.

(** Particles with other weights, writes with other values. *)
Definition weighted (e : Z) (p : rpart rounded) : rpart rounded :=
  @mk_rpart rounded (r_x p) (r_y p) (r_z p) (bpow radix2 e * mass p) (r_h p).
Definition scaled (e : Z) (ws : list (rwrite rounded)) : list (rwrite rounded) := map (fun w => (fst w, bpow radix2 e * snd w)) ws.
Definition linear (f : rpart rounded -> list (rwrite rounded)) : Prop := forall e p, f (weighted e p) = scaled e (f p).

Lemma mul_scaled e m k : mul rounded (bpow radix2 e * m) k = bpow radix2 e * mul rounded m k.
Proof. cbn [rounded mul]. unfold rnd2. rewrite Rmult_assoc. apply rnd_scale. Qed.

Lemma flat_map_scaled {B} e (f g : B -> list (rwrite rounded)) l : (forall b, g b = scaled e (f b)) -> flat_map g l = scaled e (flat_map f l).
Proof. intro H. induction l as [|b l IH]; cbn [flat_map]; [reflexivity|]. unfold scaled in *. rewrite map_app, H, IH. reflexivity. Qed.
Lemma over2_scaled e xs ys (f g : Z -> Z -> R) : (forall i j, g i j = bpow radix2 e * f i j) -> over2 rounded xs ys g = scaled e (over2 rounded xs ys f).
Proof.
  intro H. unfold over2. apply flat_map_scaled. intro i. unfold scaled. rewrite map_map. apply map_ext. intro j. cbn [fst snd]. rewrite <- H. reflexivity.
Qed.
Lemma over3_scaled e xs ys zs (f g : Z -> Z -> Z -> R) : (forall i j k, g i j k = bpow radix2 e * f i j k) -> over3 rounded xs ys zs g = scaled e (over3 rounded xs ys zs f).
Proof.
  intro H. unfold over3. apply flat_map_scaled. intro i. apply flat_map_scaled. intro j. unfold scaled. rewrite map_map. apply map_ext. intro k.
  cbn [fst snd]. rewrite <- H. reflexivity.
Qed.
Lemma copies2_scaled e bx by_ (f g : R -> R -> list (rwrite rounded)) p : (forall x y, g x y = scaled e (f x y)) ->
  copies2 rounded bx by_ g (weighted e p) = scaled e (copies2 rounded bx by_ f p).
Proof. intro H. unfold copies2. apply flat_map_scaled. intro a. apply flat_map_scaled. intro b. apply H. Qed.
Lemma copies3_scaled e sh bx by_ bz (f g : R -> R -> R -> list (rwrite rounded)) p : (forall x y z, g x y z = scaled e (f x y z)) ->
  copies3 rounded sh bx by_ bz g (weighted e p) = scaled e (copies3 rounded sh bx by_ bz f p).
Proof. intro H. unfold copies3. apply flat_map_scaled. intro a. apply flat_map_scaled. intro b. apply flat_map_scaled. intro c. apply H. Qed.

Lemma fast_scaled e n m h x y : fast_at rounded n (bpow radix2 e * m) h x y = scaled e (fast_at rounded n m h x y).
Proof.
  unfold fast_at. cbv zeta. destruct (_ || _); [reflexivity|]. destruct (_ <=? 1)%Z.
  - destruct (_ && _); [|reflexivity]. cbn [scaled map fst snd]. rewrite mul_scaled. reflexivity.
  - apply over2_scaled. intros i j. apply mul_scaled.
Qed.
Lemma histogram_scaled e n m x y : histogram_at rounded n (bpow radix2 e * m) x y = scaled e (histogram_at rounded n m x y).
Proof.
  unfold histogram_at. cbv zeta. destruct (negb _); [|reflexivity]. cbn [scaled map fst snd]. change (double rounded (bpow radix2 e * m)) with (bpow radix2 e * m).
  change (double rounded m) with m. rewrite mul_scaled. reflexivity.
Qed.
Lemma renormalised_scaled e n m h x y : renormalised_at rounded n (bpow radix2 e * m) h x y = scaled e (renormalised_at rounded n m h x y).
Proof.
  unfold renormalised_at. cbv zeta. destruct (_ || _); [reflexivity|]. destruct (_ <=? 1)%Z.
  - destruct (_ && _); [|reflexivity]. cbn [scaled map fst snd]. rewrite mul_scaled. reflexivity.
  - apply over2_scaled. intros i j. apply mul_scaled.
Qed.
Lemma reference_scaled e n m h x y0 by_ sh : reference_loop rounded n (bpow radix2 e * m) h x y0 by_ sh = scaled e (reference_loop rounded n m h x y0 by_ sh).
Proof.
  induction sh as [|s sh IH]; [reflexivity|]. cbn [reference_loop]. cbv zeta. destruct (_ || _); [exact IH|]. destruct (_ <=? 2)%Z; [reflexivity|].
  unfold scaled. rewrite map_app. apply f_equal2; [|exact IH]. apply over2_scaled. intros i j. apply mul_scaled.
Qed.
Lemma subsampled_scaled e ev di n m h x y : subsampled_at rounded ev di n (bpow radix2 e * m) h x y = scaled e (subsampled_at rounded ev di n m h x y).
Proof.
  unfold subsampled_at. cbv zeta. change (double rounded (bpow radix2 e * m)) with (bpow radix2 e * m). change (double rounded m) with m.
  destruct (_ || _); [reflexivity|]. destruct (less_eq rounded _ _).
  - destruct (negb _ && _); [cbn [scaled map fst snd]; rewrite mul_scaled; reflexivity|].
    apply flat_map_scaled. intro a. apply flat_map_scaled. intro b. destruct (_ && _); [|reflexivity]. cbn [scaled map fst snd]. rewrite mul_scaled. reflexivity.
  - apply over2_scaled. intros i j. rewrite mul_scaled. apply mul_scaled.
Qed.
Lemma slice_scaled e n zs m h x y z : slice_at rounded n zs (bpow radix2 e * m) h x y z = scaled e (slice_at rounded n zs m h x y z).
Proof. unfold slice_at. cbv zeta. destruct (_ || _); [reflexivity|]. apply over2_scaled. intros i j. apply mul_scaled. Qed.
Lemma voxel_scaled e nz n m h x y z : voxel_at rounded nz n (bpow radix2 e * m) h x y z = scaled e (voxel_at rounded nz n m h x y z).
Proof.
  unfold voxel_at. cbv zeta. destruct (_ || _); [reflexivity|]. destruct (_ || _).
  - destruct (_ && _); [|reflexivity]. cbn [scaled map fst snd]. rewrite mul_scaled. reflexivity.
  - apply over3_scaled. intros i j k. apply mul_scaled.
Qed.

(** A weight times a power of two writes to the same pixels, that power of two times as much. *)
Theorem C115_weights : forall n bx by_ bz,
  linear (fast_part rounded n bx by_) /\ linear (histogram_part rounded n bx by_) /\ linear (renormalised_part rounded n bx by_)
  /\ linear (reference_part rounded n bx by_) /\ (forall evals dither, linear (subsampled_part rounded evals dither n bx by_))
  /\ (forall z_slice, linear (slice_part rounded n z_slice bx by_ bz)) /\ linear (volume_part rounded n bx by_ bz)
  /\ (forall ratio, linear (limited_part rounded n ratio bx by_ bz)) /\ (forall fold, linear (deposit_part rounded n fold bx by_ bz)).
Proof.
  intros. repeat match goal with |- _ /\ _ => split end.
  - intros e p. apply copies2_scaled. intros. apply fast_scaled.
  - intros e p. apply copies2_scaled. intros. apply histogram_scaled.
  - intros e p. apply copies2_scaled. intros. apply renormalised_scaled.
  - intros e p. apply flat_map_scaled. intro s. apply reference_scaled.
  - intros ev di e p. apply copies2_scaled. intros. apply subsampled_scaled.
  - intros zs e p. apply copies3_scaled. intros. apply slice_scaled.
  - intros e p. apply copies3_scaled. intros. apply voxel_scaled.
  - intros ratio e p. apply copies3_scaled. intros. apply voxel_scaled.
  - intros fold e p. unfold deposit_part. cbv zeta. cbn [scaled map fst snd weighted r_x r_y r_z r_m]. rewrite mul_scaled. reflexivity.
Qed.

Lemma stored_scaled st u e x : stored st u -> st (rnd 53 (bpow radix2 e * x)) = bpow radix2 e * st (rnd 53 x).
Proof. destruct 1; cbn [rounded single double]; rewrite rnd_scale; [apply rnd_scale|reflexivity]. Qed.

Lemma draw_scaled st u e ws c : stored st u -> draw rounded st (scaled e ws) c = bpow radix2 e * draw rounded st ws c.
Proof.
  intro S. induction ws as [|[d v] t IH] using rev_ind.
  - unfold draw. cbn [scaled map fold_left]. unfold blank. rewrite zero_rounded, Rmult_0_r. reflexivity.
  - unfold scaled in *. rewrite map_app. cbn [map fst snd]. rewrite !draw_snoc, !bump_value. cbn [fst snd]. destruct (list_eq_dec Z.eq_dec d c); [|exact IH].
    etransitivity; [|exact (stored_scaled st u e _ S)]. apply (f_equal (fun z => st (rnd 53 z))). rewrite Rmult_plus_distr_l. apply f_equal2; [exact IH|reflexivity].
Qed.

Lemma pictures_scaled {B} st u e (pic pic' : B -> picture rounded) l c : stored st u -> (forall b, pic' b c = bpow radix2 e * pic b c) ->
  fold_left (fun out b => plus rounded st out (pic' b)) l (blank rounded) c
  = bpow radix2 e * fold_left (fun out b => plus rounded st out (pic b)) l (blank rounded) c.
Proof.
  intros S H. induction l as [|b l IH] using rev_ind; [cbn [fold_left]; unfold blank; rewrite zero_rounded, Rmult_0_r; reflexivity|].
  rewrite !fold_left_app. cbn [fold_left]. rewrite !plus_value.
  etransitivity; [|exact (stored_scaled st u e _ S)]. apply (f_equal (fun z => st (rnd 53 z))). rewrite Rmult_plus_distr_l. apply f_equal2; [exact IH|apply H].
Qed.

(** So the image, with one thread or many, is that power of two times as large, exactly. *)
Theorem C115_images_scale : forall store u f e ps c, stored store u -> linear f ->
  draw rounded store (flat_map f (map (weighted e) ps)) c = bpow radix2 e * draw rounded store (flat_map f ps) c
  /\ forall threads groups, parallel rounded store f (map (weighted e) ps) threads groups c = bpow radix2 e * parallel rounded store f ps threads groups c.
Proof.
  intros store u f e ps c S L.
  assert (D : forall l, draw rounded store (flat_map f (map (weighted e) l)) c = bpow radix2 e * draw rounded store (flat_map f l) c).
  { intro l. rewrite <- (draw_scaled store u) by exact S. apply (f_equal (fun ws => draw rounded store ws c)). rewrite <- (flat_map_scaled e f (fun p => f (weighted e p))) by (intro; apply L).
    rewrite !flat_map_concat_map, map_map. reflexivity. }
  split; [apply D|]. intros threads groups. unfold parallel. apply (pictures_scaled store u); [exact S|]. intro ts. unfold worker.
  apply (pictures_scaled store u); [exact S|]. intro t. unfold thread_picture. unfold zlen. rewrite map_length. unfold VisModel.slice.
  rewrite skipn_map, firstn_map. apply D.
Qed.

(** * Pictures that depend on the threads *)

Open Scope Z_scope.
(** Three particles in the one pixel of a histogram. *)
Definition heavy (m : spec_float) : rpart ieee := @mk_rpart ieee (dbl 1 (-2)) (dbl 1 (-2)) (dbl 0 0) m (dbl 0 0).
Definition three : list (rpart ieee) := [heavy (dbl 1 53); heavy (dbl 1 0); heavy (dbl 1 0)].
Definition hist : rpart ieee -> list (rwrite ieee) := histogram_part ieee 1 (dbl 0 0) (dbl 0 0).

(** Two threads do not make the picture of the serial function. *)
Theorem C115_same_picture_refuted : exists (f : rpart ieee -> list (rwrite ieee)) ps c,
  SFeqb (draw ieee (double ieee) (flat_map f ps) c) (parallel ieee (double ieee) f ps 2 [[0]; [1]] c) = false.
Proof. exists hist, three, [0; 0]. vm_compute. reflexivity. Qed.

(** Nor do three threads always make the same picture: it depends on how their turns are distributed. *)
Theorem C115_same_twice_refuted : exists (f : rpart ieee -> list (rwrite ieee)) ps c,
  SFeqb (parallel ieee (double ieee) f ps 3 [[0; 1; 2]] c) (parallel ieee (double ieee) f ps 3 [[0]; [1; 2]] c) = false.
Proof. exists hist, three, [0; 0]. vm_compute. reflexivity. Qed.

(** In single precision: two particles of weight 1 are lost on one of 2^24; and the float64 image of
    the histogram keeps them. *)
Example C115_lost :
  (draw ieee (single ieee) (flat_map hist [heavy (dbl 1 24); heavy (dbl 1 0); heavy (dbl 1 0)]) [0; 0] : spec_float) = dbl 1 24
  /\ (draw ieee (double ieee) (flat_map hist [heavy (dbl 1 24); heavy (dbl 1 0); heavy (dbl 1 0)]) [0; 0] : spec_float) = dbl (2 ^ 24 + 2) 0.
Proof. split; vm_compute; reflexivity. Qed.

(** Particles that meet the hypotheses. *)
Open Scope R_scope.
Example C115_cases : in_square (@mk_rpart rounded (/ 4) (/ 2) 0 5 0) /\ in_folded 1 1 (/ 2) /\ linear (histogram_part rounded 4 0 0)
  /\ Permutation (concat [[2; 0]; []; [1]]%Z) (zrange 0 3).
Proof.
  assert (H : forall e, (0 <= - e)%Z -> fmt 53 (bpow radix2 e)) by (intros; apply power_format; lia).
  split; [|split; [|split]].
  - unfold in_square. cbn [r_x r_y]. split; [apply (H (-2)%Z); lia|]. split; [apply (H (-1)%Z); lia|]. lra.
  - unfold in_folded. cbv zeta. assert (E : RoundFloatTheorems.folded_box 1 1 = 1).
    { unfold RoundFloatTheorems.folded_box. replace (1 / 1) with 1 by field. apply RoundFloatTheorems.rnd_1. }
    rewrite E. split; [lra|]. split; [lra|]. assert (/ 2 ^ 51 <= / 2); [|lra]. apply Rinv_le_contravar; [lra|].
    rewrite <- (pow_1 2) at 1. apply Rle_pow; [lra|lia].
  - apply C115_weights; exact 0.
  - cbn. change (zrange 0 3) with [0; 1; 2]%Z. apply perm_trans with [0; 2; 1]%Z; [apply perm_swap|]. apply perm_skip, perm_swap.
Qed.

Print Assumptions C115_weights.
Print Assumptions C115_images_scale.
Print Assumptions C115_same_picture_refuted.
Print Assumptions C115_same_twice_refuted.

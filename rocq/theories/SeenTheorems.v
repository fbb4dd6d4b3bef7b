(** Theorems about images of a part of the particles (C102). *)
From Coq Require Import List ZArith Reals Bool Lia Lra Psatz Permutation.
From Verif Require Import Base BaseLemmas VisModel VisSpec VisSumProofs VisProofs VisValueProofs VisSubProofs VisTheorems SeenSpec SeenProofs.
Import ListNotations.
Open Scope R_scope.

(** Projections: a selection that holds every particle with a copy within its kernel radius of the image gives
    the image of all particles. *)
Theorem C102_fast : forall n bx by_ ps qs, (1 <= n)%Z -> (forall p, In p ps -> 0 <= p_h p) ->
  without (fun p => seen2 bx by_ (width2 p) p) ps qs ->
  agree (square n) (fast n bx by_ ps) (fast n bx by_ qs).
Proof.
  intros n bx by_ ps qs Hn Hh K. apply (keep_image _ _ _ _ _) with (3 := K).
  - intro p. apply copies2_ok. intros. apply fast_at_ok.
  - intros p c I Kp C. apply in_bounds2 in C. destruct C as (i & j & -> & Hi & Hj).
    pose proof (unseen2 _ _ _ _ Kp) as U. unfold fast_part. rewrite value_copies2.
    apply sumR_zero. intros a _. apply sumR_zero. intros b _. apply fast_away; auto.
Qed.

Theorem C102_histogram : forall n bx by_ ps qs,
  without (seen2 bx by_ 0) ps qs ->
  agree (square n) (histogram n bx by_ ps) (histogram n bx by_ qs).
Proof.
  intros n bx by_ ps qs K. apply (keep_image _ _ _ _ _) with (3 := K).
  - intro p. apply copies2_ok. intros. apply histogram_at_ok.
  - intros p c I Kp C. apply in_bounds2 in C. destruct C as (i & j & -> & Hi & Hj).
    pose proof (unseen2 _ _ _ _ Kp) as U. unfold histogram_part. rewrite value_copies2.
    apply sumR_zero. intros a _. apply sumR_zero. intros b _. apply histogram_away; auto.
Qed.

Theorem C102_renormalised : forall n bx by_ ps qs, (1 <= n)%Z -> (forall p, In p ps -> 0 <= p_h p) ->
  without (fun p => seen2 bx by_ (width2 p) p) ps qs ->
  agree (square n) (renormalised n bx by_ ps) (renormalised n bx by_ qs).
Proof.
  intros n bx by_ ps qs Hn Hh K. apply (keep_image _ _ _ _ _) with (3 := K).
  - intro p. apply copies2_ok. intros. apply renormalised_at_ok.
  - intros p c I Kp C. apply in_bounds2 in C. destruct C as (i & j & -> & Hi & Hj).
    pose proof (unseen2 _ _ _ _ Kp) as U. unfold renormalised_part. rewrite value_copies2.
    apply sumR_zero. intros a _. apply sumR_zero. intros b _. apply renormalised_away; auto.
Qed.

Theorem C102_reference : forall n bx by_ ps qs, (1 <= n)%Z -> (forall p, In p ps -> 0 <= p_h p) ->
  without (fun p => seen2 bx by_ (width2 p) p) ps qs ->
  agree (square n) (reference n bx by_ ps) (reference n bx by_ qs).
Proof.
  intros n bx by_ ps qs Hn Hh K. apply (keep_image _ _ _ _ _) with (3 := K).
  - intro p. apply reference_ok.
  - intros p c I Kp C. apply in_bounds2 in C. destruct C as (i & j & -> & Hi & Hj).
    pose proof (unseen2 _ _ _ _ Kp) as U. rewrite reference_part_value by auto.
    apply sumR_zero. intros a _. apply sumR_zero. intros b _. apply resolved_away; auto.
Qed.

Theorem C102_subsampled : forall e d n bx by_ ps qs, (1 <= n)%Z -> (1 <= d)%Z -> (forall p, In p ps -> 0 <= p_h p) ->
  without (fun p => seen2 bx by_ (width2 p) p) ps qs ->
  agree (square n) (subsampled e d n bx by_ ps) (subsampled e d n bx by_ qs).
Proof.
  intros e d n bx by_ ps qs Hn Hd Hh K. apply (keep_image _ _ _ _ _) with (3 := K).
  - intro p. apply copies2_ok. intros. apply subsampled_at_ok.
  - intros p c I Kp C. apply in_bounds2 in C. destruct C as (i & j & -> & Hi & Hj).
    pose proof (unseen2 _ _ _ _ Kp) as U. unfold subsampled_part. rewrite value_copies2.
    apply sumR_zero. intros a _. apply sumR_zero. intros b _. apply subsampled_away; auto.
Qed.

(** On the GPU, with the threads in any order. *)
Theorem C102_gpu : forall n bx by_ ps qs ts ts', (1 <= n)%Z -> (forall p, In p ps -> 0 <= p_h p) ->
  without (fun p => seen2 bx by_ (width2 p) p) ps qs ->
  Permutation ts (gpu_threads bx by_ ps) -> Permutation ts' (gpu_threads bx by_ qs) ->
  agree (square n) (gpu n bx by_ ps ts) (gpu n bx by_ qs ts').
Proof.
  intros n bx by_ ps qs ts ts' Hn Hh K P P'.
  apply (agree_trans _ _ (fast n bx by_ ps)); [apply agree_sym, C36_gpu, P|].
  apply (agree_trans _ _ (fast n bx by_ qs)); [apply C102_fast; assumption|apply C36_gpu, P'].
Qed.

(** Slices: within the kernel radius of the image along x and y and of the slice along z. *)
Theorem C102_slice : forall xres yres zs bx by_ bz ps qs, (1 <= Z.max xres yres)%Z -> (forall p, In p ps -> 0 < p_h p) ->
  without (fun p => seen_slice zs bx by_ bz (width3 p) p) ps qs ->
  agree (square (Z.max xres yres)) (slice_scatter xres yres zs bx by_ bz ps) (slice_scatter xres yres zs bx by_ bz qs).
Proof.
  intros xres yres zs bx by_ bz ps qs Hn Hh K. apply (keep_image _ _ _ _ _) with (3 := K).
  - intro p. apply copies3_ok. intros. apply slice_at_ok.
  - intros p c I Kp C. apply in_bounds2 in C. destruct C as (i & j & -> & Hi & Hj).
    pose proof (unseen_slice _ _ _ _ _ _ Kp) as U. unfold slice_part. rewrite value_copies3.
    apply sumR_zero. intros a _. apply sumR_zero. intros b _. apply sumR_zero. intros d _. apply slice_away; auto.
Qed.

(** Volumes, also with fewer voxels along z. *)
Theorem C102_volume : forall n bx by_ bz ps qs, (1 <= n)%Z -> (forall p, In p ps -> 0 <= p_h p) ->
  without (fun p => seen3 bx by_ bz (width3 p) p) ps qs ->
  agree (cube n) (volume n bx by_ bz ps) (volume n bx by_ bz qs).
Proof.
  intros n bx by_ bz ps qs Hn Hh K. apply (keep_image _ _ _ _ _) with (3 := K).
  - intro p. apply copies3_ok. intros. apply voxel_at_ok.
  - intros p c I Kp C. apply in_bounds3 in C. destruct C as (i & j & k & -> & Hi & Hj & Hk).
    pose proof (unseen3 _ _ _ _ _ Kp) as U. unfold volume_part. rewrite value_copies3.
    apply sumR_zero. intros a _. apply sumR_zero. intros b _. apply sumR_zero. intros d _. apply voxel_away; auto.
Qed.

Theorem C102_limited_z : forall n ratio bx by_ bz ps qs, (1 <= n)%Z -> (1 <= n / ratio)%Z -> (forall p, In p ps -> 0 <= p_h p) ->
  without (fun p => seen3 bx by_ bz (width3 p) p) ps qs ->
  agree [n; n; (n / ratio)%Z] (limited_z n ratio bx by_ bz ps) (limited_z n ratio bx by_ bz qs).
Proof.
  intros n ratio bx by_ bz ps qs Hn Hr Hh K. apply (keep_image _ _ _ _ _) with (3 := K).
  - intro p. apply copies3_ok. intros. apply voxel_at_ok.
  - intros p c I Kp C. apply in_bounds3 in C. destruct C as (i & j & k & -> & Hi & Hj & Hk).
    pose proof (unseen3 _ _ _ _ _ Kp) as U. unfold limited_part. rewrite value_copies3.
    apply sumR_zero. intros a _. apply sumR_zero. intros b _. apply sumR_zero. intros d _. apply voxel_away; auto.
Qed.

(** The parallel versions, with any number of threads for either image. *)
Theorem C102_parallel : forall n bx by_ ps qs t o t' o', (1 <= n)%Z -> (forall p, In p ps -> 0 <= p_h p) ->
  without (fun p => seen2 bx by_ (width2 p) p) ps qs ->
  (1 <= t)%Z -> Permutation o (zrange 0 t) -> (1 <= t')%Z -> Permutation o' (zrange 0 t') ->
  agree (square n) (fast_parallel n bx by_ ps t o) (fast_parallel n bx by_ qs t' o')
  /\ agree (square n) (renormalised_parallel n bx by_ ps t o) (renormalised_parallel n bx by_ qs t' o')
  /\ agree (square n) (reference_parallel n bx by_ ps t o) (reference_parallel n bx by_ qs t' o').
Proof.
  intros n bx by_ ps qs t o t' o' Hn Hh K Ht Po Ht' Po'. split; [|split].
  - apply (agree_trans _ _ (fast n bx by_ ps)); [apply agree_sym, C36_fast; assumption|].
    apply (agree_trans _ _ (fast n bx by_ qs)); [apply C102_fast; assumption|apply C36_fast; assumption].
  - apply (agree_trans _ _ (renormalised n bx by_ ps)); [apply agree_sym, C36_renormalised; assumption|].
    apply (agree_trans _ _ (renormalised n bx by_ qs)); [apply C102_renormalised; assumption|apply C36_renormalised; assumption].
  - apply (agree_trans _ _ (reference n bx by_ ps)); [apply agree_sym, C36_reference; assumption|].
    apply (agree_trans _ _ (reference n bx by_ qs)); [apply C102_reference; assumption|apply C36_reference; assumption].
Qed.

Theorem C102_parallel_others : forall n bx by_ ps qs t o t' o' e d, (1 <= n)%Z -> (1 <= d)%Z -> (forall p, In p ps -> 0 <= p_h p) ->
  (1 <= t)%Z -> Permutation o (zrange 0 t) -> (1 <= t')%Z -> Permutation o' (zrange 0 t') ->
  (without (fun p => seen2 bx by_ (width2 p) p) ps qs ->
   agree (square n) (subsampled_parallel e d n bx by_ ps t o) (subsampled_parallel e d n bx by_ qs t' o'))
  /\ (without (seen2 bx by_ 0) ps qs ->
   agree (square n) (histogram_parallel n bx by_ ps t o) (histogram_parallel n bx by_ qs t' o'))
  /\ (forall bz, without (fun p => seen3 bx by_ bz (width3 p) p) ps qs ->
   agree (cube n) (volume_parallel n 1 bx by_ bz ps t o) (volume_parallel n 1 bx by_ bz qs t' o')).
Proof.
  intros n bx by_ ps qs t o t' o' e d Hn Hd Hh Ht Po Ht' Po'. split; [|split].
  - intro K. apply (agree_trans _ _ (subsampled e d n bx by_ ps)); [apply agree_sym, C36_subsampled; assumption|].
    apply (agree_trans _ _ (subsampled e d n bx by_ qs)); [apply C102_subsampled; assumption|apply C36_subsampled; assumption].
  - intro K. apply (agree_trans _ _ (histogram n bx by_ ps)); [apply agree_sym, C36_histogram; assumption|].
    apply (agree_trans _ _ (histogram n bx by_ qs)); [apply C102_histogram; assumption|apply C36_histogram; assumption].
  - intros bz K. apply (agree_trans _ _ (volume n bx by_ bz ps)); [apply agree_sym, C36_volume; assumption|].
    apply (agree_trans _ _ (volume n bx by_ bz qs)); [apply C102_volume; assumption|apply C36_volume; assumption].
Qed.

(** * Examples *)

Definition beside : part := mkpart (- 1 / 100) (1 / 2) 0 1 (25 / 100 / gamma2).
Definition far_off : part := mkpart 3 (1 / 2) 0 1 (25 / 100 / gamma2).

Lemma beside_width : width2 beside = 25 / 100.
Proof. unfold width2, beside, gamma2. cbn [p_h]. unfold gamma2. field. Qed.

Example C102_case : without (fun p => seen2 0 0 (width2 p) p) [beside; far_off] [beside]
  /\ seen2 0 0 (width2 beside) beside.
Proof.
  split.
  - constructor. apply without_left; [|constructor]. intros (a & b & T & _).
    change (width2 far_off) with (width2 beside) in T. rewrite beside_width in T. unfold touches in T. cbn [p_x far_off] in T. lra.
  - exists 0%Z, 0%Z. rewrite beside_width. unfold touches. cbn [p_x p_y beside]. lra.
Qed.

(** A selection that holds all particles that are seen is one of those. *)
Theorem C102_selection : forall (seen : part -> Prop) (keep : part -> bool) ps,
  (forall p, In p ps -> seen p -> keep p = true) -> without seen ps (filter keep ps).
Proof. apply without_filter. Qed.

(** The particles in the image alone are not enough. *)
Theorem C102_no_margin_refuted :
  ~ (forall n bx by_ ps qs, (1 <= n)%Z -> (forall p, In p ps -> 0 <= p_h p) ->
       without (seen2 bx by_ 0) ps qs ->
       agree (square n) (fast n bx by_ ps) (fast n bx by_ qs)).
Proof.
  intro H. specialize (H 10%Z 0 0 [beside] [] ltac:(lia)).
  destruct H as (a & b & Ea & Eb & V).
  - intros p [<-|[]]. unfold beside, gamma2. cbn [p_h]. lra.
  - apply without_left; [|constructor]. intros (i & j & T & _). unfold touches, beside in T. cbn [p_x] in T. lra.
  - destruct (C38_pixels 10 0 0 [beside] 1) as (img & E & P); try lia; try lra.
    { left. reflexivity. } { left. reflexivity. }
    { intros p [<-|[]]. unfold settled2, wrapped, fits. repeat split; auto. unfold beside, gamma2. cbn [p_h]. lra. }
    rewrite Ea in E. injection E as <-.
    assert (B0 : b [0; 5]%Z = 0).
    { unfold fast, render in Eb. cbn [flat_map perform] in Eb. injection Eb as <-. reflexivity. }
    pose proof (V [0; 5]%Z eq_refl) as Q. rewrite B0, P in Q by lia.
    unfold sum_copies2, all_copies in Q. destruct (Req_EM_T 0 0) as [_|X]; [|contradiction]. cbn [map] in Q.
    rewrite !sumR_cons, !sumR_nil, !Rplus_0_r in Q. unfold deposit2 in Q. rewrite beside_width in Q.
    destruct (Rlt_dec (25 / 100 * 10) 1); [lra|].
    assert (0 < W2 (dist2 (centre 10 0) (centre 10 5) (p_x beside + 0 * 0) (p_y beside + 0 * 0)) (25 / 100)).
    { rewrite <- kernel2_W2; [|lra|apply dist2_nonneg]. apply kernel2_pos; [lra|apply dist2_nonneg|].
      unfold dist2, centre, beside. cbn [p_x p_y].
      apply (Rle_lt_trans _ (sqrt (1 / 25))).
      - apply sqrt_le_1_alt. lra.
      - replace (1 / 25) with (1 / 5 * (1 / 5)) by lra. rewrite sqrt_square; lra. }
    cbn [p_m beside] in *. lra.
Qed.

Print Assumptions C102_selection.
Print Assumptions C102_fast.
Print Assumptions C102_histogram.
Print Assumptions C102_renormalised.
Print Assumptions C102_reference.
Print Assumptions C102_subsampled.
Print Assumptions C102_gpu.
Print Assumptions C102_slice.
Print Assumptions C102_volume.
Print Assumptions C102_limited_z.
Print Assumptions C102_parallel.
Print Assumptions C102_parallel_others.
Print Assumptions C102_no_margin_refuted.

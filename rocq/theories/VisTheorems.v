(** Theorems about the image backends (C36-C41). *)
From Coq Require Import List ZArith Reals Bool Lia Lra Psatz Permutation.
From Verif Require Import Base BaseLemmas VisModel VisSpec VisSumProofs VisProofs VisValueProofs.
Import ListNotations.
Open Scope R_scope.

(** * C36: parallel images equal serial images *)

(** Every particle is deposited by exactly one thread. *)
Theorem C36_each_particle_once : forall (ps : list part) threads, (1 <= threads)%Z ->
  flat_map (fun t => slice ps (thread_range (zlen ps) threads t)) (zrange 0 threads) = ps.
Proof. intros ps threads H. apply slices_all. exact H. Qed.

(** The serial and the parallel function both succeed, with the same image. *)
Definition agree (s : shape) (serial parallel : res image) : Prop :=
  exists a b, serial = Ok a /\ parallel = Ok b /\ same_image s a b.

Theorem C36_fast : forall n bx by_ ps threads order,
  (1 <= threads)%Z -> Permutation order (zrange 0 threads) ->
  agree (square n) (fast n bx by_ ps) (fast_parallel n bx by_ ps threads order).
Proof.
  intros. apply parallel_same; auto. intros p _. apply copies2_ok. intros. apply fast_at_ok.
Qed.

Theorem C36_histogram : forall n bx by_ ps threads order,
  (1 <= threads)%Z -> Permutation order (zrange 0 threads) ->
  agree (square n) (histogram n bx by_ ps) (histogram_parallel n bx by_ ps threads order).
Proof.
  intros. apply parallel_same; auto. intros p _. apply copies2_ok. intros. apply histogram_at_ok.
Qed.

Theorem C36_renormalised : forall n bx by_ ps threads order,
  (1 <= threads)%Z -> Permutation order (zrange 0 threads) ->
  agree (square n) (renormalised n bx by_ ps) (renormalised_parallel n bx by_ ps threads order).
Proof.
  intros. apply parallel_same; auto. intros p _. apply copies2_ok. intros. apply renormalised_at_ok.
Qed.

Theorem C36_reference : forall n bx by_ ps threads order,
  (1 <= threads)%Z -> Permutation order (zrange 0 threads) ->
  agree (square n) (reference n bx by_ ps) (reference_parallel n bx by_ ps threads order).
Proof. intros. apply parallel_same; auto. intros p _. apply reference_ok. Qed.

Theorem C36_subsampled : forall evals dither n bx by_ ps threads order,
  (1 <= threads)%Z -> Permutation order (zrange 0 threads) ->
  agree (square n) (subsampled evals dither n bx by_ ps)
        (subsampled_parallel evals dither n bx by_ ps threads order).
Proof.
  intros. apply parallel_same; auto. intros p _. apply copies2_ok. intros. apply subsampled_at_ok.
Qed.

Theorem C36_slice : forall xres yres zs bx by_ bz ps threads order,
  (1 <= threads)%Z -> Permutation order (zrange 0 threads) ->
  agree [xres; yres] (slice_scatter xres yres zs bx by_ bz ps)
        (slice_parallel xres yres zs bx by_ bz ps threads order).
Proof.
  intros. apply parallel_same; auto. intros p _. apply copies3_ok. intros. apply slice_at_ok.
Qed.

Theorem C36_volume : forall n bx by_ bz ps threads order,
  (1 <= threads)%Z -> Permutation order (zrange 0 threads) ->
  agree (cube n) (volume n bx by_ bz ps) (volume_parallel n 1 bx by_ bz ps threads order).
Proof.
  intros. unfold volume_parallel. rewrite Z.eqb_refl. apply parallel_same; auto.
  intros p _. apply copies3_ok. intros. apply voxel_at_ok.
Qed.

(** Seven particles on three threads finishing in another order: ranges 0-2, 2-4, 4-7. *)
Example C36_three_threads :
  map (thread_range 7 3) [0; 1; 2]%Z = [(0, 2); (2, 4); (4, 7)]%Z /\
  Permutation [2; 0; 1]%Z (zrange 0 3) /\ (1 <= 3)%Z.
Proof.
  split; [reflexivity|split; [|lia]]. change (zrange 0 3) with [0; 1; 2]%Z.
  eapply perm_trans; [apply perm_swap|]. apply perm_skip. apply perm_swap.
Qed.
(** More threads than particles: the last thread does everything. *)
Example C36_many_threads : map (thread_range 2 4) [0; 1; 2; 3]%Z = [(0, 0); (0, 0); (0, 0); (0, 2)]%Z.
Proof. reflexivity. Qed.

(** The GPU: one thread for every particle and copy, in any order, gives the same image as
    the serial function. *)
Lemma gpu_shifts : forall box, map (fun d => (IZR d - 1) * box) (zrange 0 (gpu_copies box))
  = map (fun a => IZR a * box) (shifts box).
Proof.
  intro box. unfold gpu_copies, shifts. destruct (Req_EM_T box 0) as [->|N].
  - change (zrange 0 1) with [0%Z]. cbn [map]. f_equal. ring.
  - replace (ceil (1 / box) + 2)%Z with (ceil (1 / box) + 1 + 1)%Z by lia.
    generalize (ceil (1 / box) + 1)%Z. intro k.
    assert (H : forall m a, map (fun d => (IZR d - 1) * box) (zrange (a + 1) (a + 1 + Z.of_nat m))
      = map (fun d => IZR d * box) (zrange a (a + Z.of_nat m))).
    { induction m as [|m IH]; intro a.
      - rewrite !zrange_nil by lia. reflexivity.
      - rewrite (zrange_cons (a + 1)), (zrange_cons a) by lia. cbn [map]. f_equal.
        + rewrite plus_IZR. ring.
        + replace (a + 1 + Z.of_nat (S m))%Z with (a + 1 + 1 + Z.of_nat m)%Z by lia.
          replace (a + Z.of_nat (S m))%Z with (a + 1 + Z.of_nat m)%Z by lia. apply (IH (a + 1)%Z). }
    destruct (Z_le_gt_dec (-1) k) as [L|L].
    + specialize (H (Z.to_nat (k + 1)) (-1)%Z).
      replace (-1 + Z.of_nat (Z.to_nat (k + 1)))%Z with k in H by lia.
      replace (-1 + 1 + Z.of_nat (Z.to_nat (k + 1)))%Z with (k + 1)%Z in H by lia. exact H.
    + rewrite !zrange_nil by lia. reflexivity.
Qed.

Lemma flat_map_map' : forall A B C (f : A -> B) (g : B -> list C) l,
  flat_map g (map f l) = flat_map (fun a => g (f a)) l.
Proof. intros A B C f g l. induction l as [|x t IH]; cbn; [reflexivity|]. rewrite IH. reflexivity. Qed.

Lemma flat_map_flat_map' : forall A B C (f : A -> list B) (g : B -> list C) l,
  flat_map g (flat_map f l) = flat_map (fun a => flat_map g (f a)) l.
Proof. intros A B C f g l. induction l as [|x t IH]; cbn; [reflexivity|]. rewrite flat_map_app, IH. reflexivity. Qed.

Lemma flat_map_empty : forall A B (f : A -> list B) l, (forall a, In a l -> f a = []) -> flat_map f l = [].
Proof.
  intros A B f l H. induction l as [|x t IH]; [reflexivity|]. cbn [flat_map]. rewrite H by (left; reflexivity).
  apply IH. intros a Ha. apply H. right. exact Ha.
Qed.

Lemma gpu_all : forall n bx by_ ps,
  flat_map (gpu_thread n bx by_ ps) (gpu_threads bx by_ ps) = flat_map (fast_part n bx by_) ps.
Proof.
  intros n bx by_ ps. unfold gpu_threads. rewrite flat_map_flat_map'.
  set (F := fun i => match nth_error ps (Z.to_nat i) with Some p => fast_part n bx by_ p | None => [] end).
  transitivity (flat_map F (zrange 0 (16 * ceil (IZR (zlen ps) / 16)))).
  { apply flat_map_ext. intro i. unfold F. rewrite flat_map_flat_map'. unfold gpu_thread.
    destruct (nth_error ps (Z.to_nat i)) as [p|] eqn:E.
    - unfold fast_part, copies2.
      rewrite <- (flat_map_map' _ _ _ (fun a => IZR a * bx) (fun d => flat_map (fun b =>
         fast_at n (p_m p) (p_h p) (p_x p + d) (p_y p + IZR b * by_)) (shifts by_))).
      rewrite <- gpu_shifts, flat_map_map'. apply flat_map_ext. intro dx.
      rewrite <- (flat_map_map' _ _ _ (fun b => IZR b * by_) (fun d =>
         fast_at n (p_m p) (p_h p) (p_x p + (IZR dx - 1) * bx) (p_y p + d))).
      rewrite <- gpu_shifts, !flat_map_map'. apply flat_map_ext. intro dy. rewrite E. reflexivity.
    - apply flat_map_empty. intros dx _. rewrite flat_map_map'. apply flat_map_empty. intros dy _. rewrite E. reflexivity. }
  assert (L : (zlen ps <= 16 * ceil (IZR (zlen ps) / 16))%Z).
  { pose proof (ceil_spec (IZR (zlen ps) / 16)). apply IZR_le_lt. rewrite mult_IZR. lra. }
  pose proof (zlen_nonneg ps) as Z0.
  rewrite (zrange_app 0 (zlen ps)) by lia. rewrite flat_map_app.
  rewrite (flat_map_empty _ _ F (zrange (zlen ps) _)).
  2: { intros i Hi. apply In_zrange in Hi. unfold F. destruct (nth_error ps (Z.to_nat i)) eqn:E; auto.
       assert (Z.to_nat i < length ps)%nat by (apply nth_error_Some; congruence). unfold zlen in Hi. lia. }
  rewrite app_nil_r. clear L Z0. unfold F. generalize (fast_part n bx by_). intro G. clear F.
  induction ps as [|p t IH] using rev_ind; [reflexivity|].
  assert (E : zlen (t ++ [p]) = (zlen t + 1)%Z) by (unfold zlen; rewrite app_length; cbn; lia).
  pose proof (zlen_nonneg t).
  rewrite E, zrange_snoc, !flat_map_app by lia. f_equal.
  - rewrite <- IH. rewrite !flat_map_concat_map. f_equal. apply map_ext_in. intros i Hi. apply In_zrange in Hi.
    rewrite nth_error_app1; auto. unfold zlen in Hi. lia.
  - cbn [flat_map]. f_equal. unfold zlen. rewrite Nat2Z.id, nth_error_app2, Nat.sub_diag by lia. reflexivity.
Qed.

Theorem C36_gpu : forall n bx by_ ps ts, Permutation ts (gpu_threads bx by_ ps) ->
  agree (square n) (fast n bx by_ ps) (gpu n bx by_ ps ts).
Proof.
  intros n bx by_ ps ts H.
  assert (O : ok_writes (square n) (flat_map (fast_part n bx by_) ps)).
  { apply ok_flat_map. intros p _. apply copies2_ok. intros. apply fast_at_ok. }
  pose proof (Permutation_flat_map (gpu_thread n bx by_ ps) H) as P. rewrite gpu_all in P.
  destruct (render_spec _ _ O) as (a & Ea & Va).
  destruct (render_spec (square n) (flat_map (gpu_thread n bx by_ ps) ts)) as (b & Eb & Vb).
  { unfold ok_writes in *. rewrite Forall_forall in *. intros w Hw. apply O. eapply Permutation_in; eauto. }
  exists a, b. split; [exact Ea|split; [exact Eb|]]. intros c _. rewrite Va, Vb. apply value_at_perm.
  apply Permutation_sym. exact P.
Qed.

Lemma woven_perm : forall A (ts : list (list A)) l, woven ts l -> Permutation l (concat ts).
Proof.
  intros A ts l H. induction H as [ts F|b x t a l H IH].
  - induction F as [|t ts -> F IH]; [constructor|exact IH].
  - rewrite concat_app in *. cbn [concat app] in *. rewrite IH. apply Permutation_middle.
Qed.

(** The threads of the GPU run at the same time: their additions, each of them atomic, may
    come in any order that keeps the order of every thread. *)
Theorem C36_gpu_interleaved : forall n bx by_ ps ts ws, Permutation ts (gpu_threads bx by_ ps) ->
  woven (map (gpu_thread n bx by_ ps) ts) ws ->
  agree (square n) (fast n bx by_ ps) (render (square n) ws).
Proof.
  intros n bx by_ ps ts ws H W. apply woven_perm in W. rewrite <- flat_map_concat_map in W.
  destruct (C36_gpu n bx by_ ps ts H) as (a & b & Ea & Eb & V). unfold gpu in Eb.
  assert (O : ok_writes (square n) (flat_map (fast_part n bx by_) ps)).
  { apply ok_flat_map. intros p _. apply copies2_ok. intros. apply fast_at_ok. }
  pose proof (Permutation_flat_map (gpu_thread n bx by_ ps) H) as P. rewrite gpu_all in P.
  destruct (render_spec (square n) ws) as (d & Ed & Vd).
  { unfold ok_writes in *. rewrite Forall_forall in *. intros w Hw. apply O. eapply Permutation_in; [|exact Hw].
    rewrite W. exact P. }
  destruct (render_spec _ _ O) as (a' & Ea' & Va). exists a', d. split; [exact Ea'|split; [exact Ed|]].
  intros c _. rewrite Va, Vd. apply value_at_perm. symmetry. rewrite W. exact P.
Qed.

(** Two threads on one pixel, woven. *)
Example C36_woven_example :
  woven [[([0; 0]%Z, 1); ([0; 1]%Z, 2)]; [([0; 0]%Z, 3)]] [([0; 0]%Z, 1); ([0; 0]%Z, 3); ([0; 1]%Z, 2)].
Proof.
  apply (woven_next [] _ [([0; 1]%Z, 2)] [[([0; 0]%Z, 3)]]). apply (woven_next [[([0; 1]%Z, 2)]] _ [] []).
  apply (woven_next [] _ [] [[]]). apply woven_done. repeat constructor.
Qed.

(** Fewer voxels along z: the parallel function adds an (n, n, n / ratio) image to an
    (n, n, n) output, which fails... *)
Theorem C36_limited_z_refuted : forall n ratio bx by_ bz ps threads t rest,
  (2 <= ratio)%Z -> (2 <= n / ratio)%Z ->
  exists img, limited_z n ratio bx by_ bz ps = Ok img /\
  volume_parallel n ratio bx by_ bz ps threads (t :: rest) = Err ValueError.
Proof.
  intros n ratio bx by_ bz ps threads t rest Hr Hn.
  assert (O : forall qs, ok_writes [n; n; (n / ratio)%Z] (flat_map (limited_part n ratio bx by_ bz) qs)).
  { intro qs. apply ok_flat_map. intros p _. apply copies3_ok. intros. apply voxel_at_ok. }
  destruct (render_spec _ _ (O ps)) as (img & E & _). exists img. split; [exact E|].
  unfold volume_parallel. replace (ratio =? 1)%Z with false by (symmetry; apply Z.eqb_neq; lia).
  unfold parallel. cbn [reduce].
  destruct (render_spec _ _ (O (slice ps (thread_range (zlen ps) threads t)))) as (q & Eq & _). rewrite Eq.
  cbn [bind]. unfold iadd. assert (B : broadcasts (cube n) [n; n; (n / ratio)%Z] = false).
  { cbn. rewrite !Z.eqb_refl. cbn [orb andb].
    assert (0 < n)%Z. { destruct (Z_le_gt_dec n 0); [|lia]. assert (n / ratio <= 0)%Z by (apply Z.div_le_upper_bound; lia). lia. }
    assert (n / ratio < n)%Z by (apply Z.div_lt; lia).
    destruct (Z.eqb_spec n (n / ratio)); [lia|]. destruct (Z.eqb_spec (n / ratio) 1); [lia|]. reflexivity. }
  rewrite B. reflexivity.
Qed.
Example C36_limited_z_case : (2 <= 2)%Z /\ (2 <= 8 / 2)%Z.
Proof. vm_compute. split; discriminate. Qed.

(** ... unless there is a single voxel along z: then that layer is repeated [n] times. *)
Theorem C36_single_layer_refuted : forall n ratio bx by_ bz ps threads order,
  (2 <= ratio)%Z -> (n / ratio = 1)%Z -> (1 <= threads)%Z -> Permutation order (zrange 0 threads) ->
  exists a b, limited_z n ratio bx by_ bz ps = Ok a /\
    volume_parallel n ratio bx by_ bz ps threads order = Ok b /\
    forall i j k, (0 <= i < n)%Z -> (0 <= j < n)%Z -> (0 <= k < n)%Z -> b [i; j; k] = a [i; j; 0%Z].
Proof.
  intros n ratio bx by_ bz ps threads order Hr Hn Ht Ho.
  set (f := limited_part n ratio bx by_ bz).
  assert (O : forall qs, ok_writes [n; n; (n / ratio)%Z] (flat_map f qs)).
  { intro qs. apply ok_flat_map. intros p _. apply copies3_ok. intros. apply voxel_at_ok. }
  destruct (render_spec _ _ (O ps)) as (a & E & V).
  assert (R : forall ord out, exists b, reduce (cube n) [n; n; (n / ratio)%Z] [n; n; (n / ratio)%Z] f ps threads ord out = Ok b /\
    forall i j k, (0 <= i < n)%Z -> (0 <= j < n)%Z -> (0 <= k < n)%Z -> b [i; j; k] = out [i; j; k] +
      value_at [i; j; 0%Z] (flat_map f (flat_map (fun t => slice ps (thread_range (zlen ps) threads t)) ord))).
  { induction ord as [|t rest IH]; intro out; cbn [reduce].
    - exists out. split; auto. intros. cbn [flat_map]. rewrite value_nil. lra.
    - destruct (render_spec _ _ (O (slice ps (thread_range (zlen ps) threads t)))) as (q & Eq & Vq). rewrite Eq.
      cbn [bind]. unfold iadd at 1.
      assert (B : broadcasts (cube n) [n; n; (n / ratio)%Z] = true).
      { cbn. rewrite !Z.eqb_refl, Hn, Z.eqb_refl, orb_true_r. reflexivity. }
      rewrite B. cbn [bind].
      destruct (IH (fun c => out c + q (clip [n; n; (n / ratio)%Z] c))) as (b & Eb & Vb). exists b. split; [exact Eb|].
      intros i j k Hi Hj Hk. rewrite Vb by auto.
      assert (C : clip [n; n; (n / ratio)%Z] [i; j; k] = [i; j; 0%Z]).
      { cbn. rewrite Hn. cbn. destruct (Z.eqb_spec n 1); [|reflexivity].
        replace i with 0%Z by lia. replace j with 0%Z by lia. reflexivity. }
      rewrite C, Vq. cbn [flat_map]. rewrite flat_map_app, value_at_app. lra. }
  destruct (R order zeros) as (b & Eb & Vb). exists a, b. split; [exact E|split].
  - unfold volume_parallel. replace (ratio =? 1)%Z with false by (symmetry; apply Z.eqb_neq; lia). exact Eb.
  - intros i j k Hi Hj Hk. rewrite Vb, V by auto. unfold zeros. rewrite Rplus_0_l. apply value_at_perm.
    pose proof (f_equal (flat_map f) (slices_all part ps threads Ht)) as S. rewrite <- S.
    apply Permutation_flat_map. apply Permutation_flat_map. exact Ho.
Qed.
Example C36_single_layer_case : (8 / 8 = 1)%Z.
Proof. reflexivity. Qed.

(** * C37: periodic tiling *)

(** A copy whose kernel reaches a point of the image, or of a slice inside the box, is
    among those that the backends use; no copy is used twice. *)
Theorem C37_copies_complete : forall box x w u a, 0 < box -> 0 <= x <= box -> w <= box ->
  0 <= u -> u <= 1 \/ u < box -> Rabs (u - (x + IZR a * box)) < w -> In a (shifts box).
Proof.
  intros box x w u a Hb Hx Hw Hu0 Hu H.
  destruct (in_dec Z.eq_dec a (shifts box)) as [I|N]; auto. exfalso.
  assert (Lo : left_out box a).
  { split; [lra|]. intro R. apply N. unfold shifts. destruct (Req_EM_T box 0); [lra|]. apply In_zrange. lia. }
  destruct (left_out_far box x w a u) as [F|F]; auto; try lra; try (right; lra).
  - pose proof (Rle_abs (u - (x + IZR a * box))). lra.
  - pose proof (Rle_abs (- (u - (x + IZR a * box)))) as Ab. rewrite Rabs_Ropp in Ab. lra.
Qed.

Theorem C37_no_copy_twice : forall box, NoDup (shifts box).
Proof. intro box. unfold shifts. destruct (Req_EM_T box 0); apply NoDup_zrange. Qed.

(** A kernel wider than the box may reach the image from a copy that is left out. *)
Theorem C37_wide_kernel_refuted : exists box x w u a, 0 < box /\ 0 <= x < box /\ 0 <= u <= 1 /\
  Rabs (u - (x + IZR a * box)) < w /\ ~ In a (shifts box).
Proof.
  exists 1, 0, (5 / 2), (1 / 4), 2%Z. repeat split; try lra.
  - rewrite Rabs_left1; lra.
  - unfold shifts. destruct (Req_EM_T 1 0); [lra|]. rewrite In_zrange. intros (_ & H).
    rewrite (ceil_unique (1 / 1) 1) in H by lra. lia.
Qed.

(** scatter_limited_z always takes three copies: enough for regions up to the box... *)
Theorem C37_limited_z : forall box, 1 <= box -> shifts_limited box = shifts box.
Proof.
  intros box H. unfold shifts_limited, shifts. destruct (Req_EM_T box 0); [reflexivity|].
  rewrite (ceil_unique (1 / box) 1); [reflexivity|].
  assert (0 < 1 / box) by (apply Rdiv_lt_0_compat; lra).
  assert (1 / box <= 1). { apply (Rmult_le_reg_r box); [lra|]. unfold Rdiv. rewrite Rmult_assoc, Rinv_l; lra. }
  lra.
Qed.
(** ... but copies inside a larger region are missing. *)
Theorem C37_limited_z_refuted : exists box x a, 0 < box /\ 0 <= x < box /\
  0 <= x + IZR a * box < 1 /\ In a (shifts box) /\ ~ In a (shifts_limited box).
Proof.
  exists (/ 4), 0, 2%Z. repeat split; try lra.
  - unfold shifts. destruct (Req_EM_T (/ 4) 0); [lra|]. rewrite (ceil_unique (1 / / 4) 4) by lra.
    apply In_zrange. lia.
  - unfold shifts_limited. destruct (Req_EM_T (/ 4) 0); [lra|]. rewrite In_zrange. lia.
Qed.

(** * C38: pixels of the fast projection *)

Lemma fast_ok : forall n bx by_ ps, ok_writes (square n) (flat_map (fast_part n bx by_) ps).
Proof. intros. apply ok_flat_map. intros p _. apply copies2_ok. intros. apply fast_at_ok. Qed.

Lemma deposit2_contribution : forall n p x y i j, (1 <= n)%Z -> 0 <= p_h p ->
  contribution2 n (p_m p) (gamma2 * p_h p) x y i j = deposit2 n p x y i j.
Proof.
  intros n p x y i j Hn Hh. unfold contribution2, deposit2. change (gamma2 * p_h p) with (width2 p).
  destruct (Rlt_dec (width2 p * IZR n) 1) as [L|L]; [reflexivity|].
  rewrite kernel2_W2; auto; [|apply dist2_nonneg].
  pose proof (n_pos n Hn). unfold width2 in *. nra.
Qed.

Theorem C38_pixels : forall n bx by_ ps N, (1 <= n)%Z -> 0 <= bx -> 0 <= by_ ->
  enough bx N -> enough by_ N -> (forall p, In p ps -> settled2 bx by_ p) ->
  exists img, fast n bx by_ ps = Ok img /\
    forall i j, (0 <= i < n)%Z -> (0 <= j < n)%Z ->
      img [i; j] = sum_copies2 bx by_ N ps (fun p x y => deposit2 n p x y i j).
Proof.
  intros n bx by_ ps N Hn Bx By Ex Ey Hs.
  destruct (render_spec _ _ (fast_ok n bx by_ ps)) as (img & E & V). exists img. split; [exact E|].
  intros i j Hi Hj. rewrite V, value_at_flat_map. unfold sum_copies2. apply sumR_ext. intros p Hp.
  destruct (Hs p Hp) as (Hh & Wx & Wy & Fx & Fy).
  assert (Hw : 0 <= gamma2 * p_h p) by (pose proof gamma2_pos; nra).
  unfold fast_part. rewrite value_copies2.
  transitivity (sumR (map (fun a => sumR (map (fun b =>
    contribution2 n (p_m p) (gamma2 * p_h p) (p_x p + IZR a * bx) (p_y p + IZR b * by_) i j) (shifts by_))) (shifts bx))).
  { apply sumR_ext. intros a _. apply sumR_ext. intros b _. apply fast_at_value; auto. }
  rewrite (tiles2 bx by_ N (fun x y => contribution2 n (p_m p) (gamma2 * p_h p) x y i j)); auto.
  - apply sumR_ext. intros a _. apply sumR_ext. intros b _. apply deposit2_contribution; auto.
  - intros a v Ha. apply contribution2_left_x; auto.
  - intros b u Hb. apply contribution2_left_y; auto.
Qed.

(** No write is out of bounds, whatever the particles. *)
Theorem C38_in_bounds : forall n bx by_ ps, exists img, fast n bx by_ ps = Ok img.
Proof. intros. destruct (render_spec _ _ (fast_ok n bx by_ ps)) as (img & E & _). exists img. exact E. Qed.

(** A particle near the corner of a periodic box, with a kernel of 2.5 pixels. *)
Example C38_case : let p := mkpart (1 / 100) (99 / 100) 0 1 (25 / 100 / gamma2) in
  settled2 1 1 p /\ enough 1 1 /\ 0 < deposit2 10 p (p_x p + IZR 1 * 1) (p_y p) 9 9.
Proof.
  cbv zeta.
  assert (Ew : width2 (mkpart (1 / 100) (99 / 100) 0 1 (25 / 100 / gamma2)) = 25 / 100).
  { unfold width2, gamma2. cbn [p_h]. field. }
  split; [|split].
  - unfold settled2, wrapped, fits. rewrite Ew. cbn [p_x p_y p_h]. unfold gamma2.
    split; [lra|]. repeat split; right; lra.
  - right. split; [lia|lra].
  - unfold deposit2. rewrite Ew. destruct (Rlt_dec (25 / 100 * 10) 1); [lra|]. cbn [p_x p_y p_m].
    rewrite Rmult_1_l. rewrite <- kernel2_W2; [|lra|apply dist2_nonneg].
    apply kernel2_pos; [lra|apply dist2_nonneg|]. unfold dist2, centre.
    apply (Rle_lt_trans _ (sqrt (1 / 25))).
    + apply sqrt_le_1_alt. lra.
    + replace (1 / 25) with (1 / 5 * (1 / 5)) by lra. rewrite sqrt_square; lra.
Qed.

(** * C39: histograms conserve mass *)

Lemma histogram_ok : forall n bx by_ ps, ok_writes (square n) (flat_map (histogram_part n bx by_) ps).
Proof. intros. apply ok_flat_map. intros p _. apply copies2_ok. intros. apply histogram_at_ok. Qed.

Theorem C39_total : forall n bx by_ ps N, (1 <= n)%Z -> 0 <= bx -> 0 <= by_ ->
  enough bx N -> enough by_ N ->
  (forall p, In p ps -> wrapped bx (p_x p) /\ wrapped by_ (p_y p)) ->
  exists img, histogram n bx by_ ps = Ok img /\
    total2 n img * (1 / IZR n * (1 / IZR n))
    = sum_copies2 bx by_ N ps (fun p x y => if unitb x && unitb y then p_m p else 0).
Proof.
  intros n bx by_ ps N Hn Bx By Ex Ey Hw.
  destruct (render_spec _ _ (histogram_ok n bx by_ ps)) as (img & E & _). exists img. split; [exact E|].
  rewrite (total2_render n _ img E), sumR_map_flat_map. pose proof (n_pos n Hn) as Np.
  rewrite <- sumR_scal_r. unfold sum_copies2. apply sumR_ext. intros p Hp. destruct (Hw p Hp) as (Wx & Wy).
  unfold histogram_part, copies2. rewrite sumR_map_flat_map.
  rewrite <- (tiles2 bx by_ N (fun x y => if unitb x && unitb y then p_m p else 0)); auto.
  - rewrite <- sumR_scal_r. apply sumR_ext. intros a _. rewrite sumR_map_flat_map, <- sumR_scal_r.
    apply sumR_ext. intros b _. rewrite histogram_at_total by auto. destruct (unitb _ && unitb _); [field; lra|ring].
  - intros a v Ha. rewrite left_out_unit; auto.
  - intros b u Hb. rewrite (left_out_unit by_); auto. rewrite andb_false_r. reflexivity.
Qed.

Theorem C39_full_box : forall n ps, (1 <= n)%Z -> (forall p, In p ps -> 0 <= p_x p < 1 /\ 0 <= p_y p < 1) ->
  exists img, histogram n 1 1 ps = Ok img /\
    total2 n img * (1 / IZR n * (1 / IZR n)) = sumR (map p_m ps).
Proof.
  intros n ps Hn Hp.
  destruct (C39_total n 1 1 ps 1) as (img & E & T); auto; try lra; try (right; split; [lia|lra]).
  - intros p Hi. destruct (Hp p Hi). split; right; lra.
  - exists img. split; [exact E|]. rewrite T. unfold sum_copies2. apply sumR_ext. intros p Hi.
    destruct (Hp p Hi) as (Hx & Hy). unfold all_copies. destruct (Req_EM_T 1 0); [lra|].
    change (zrange (- (1)) (1 + 1)) with [-1; 0; 1]%Z. cbn [map].
    rewrite !unit_once by auto. cbn. lra.
Qed.

(** Each pixel holds the mass of the copies in it over its area. *)
Theorem C39_pixels : forall n bx by_ ps N, (1 <= n)%Z -> 0 <= bx -> 0 <= by_ ->
  enough bx N -> enough by_ N ->
  (forall p, In p ps -> wrapped bx (p_x p) /\ wrapped by_ (p_y p)) ->
  exists img, histogram n bx by_ ps = Ok img /\
    forall i j, (0 <= i < n)%Z -> (0 <= j < n)%Z ->
    img [i; j] = sum_copies2 bx by_ N ps (fun p x y =>
      if in_pixelb n i x && in_pixelb n j y then p_m p * (IZR n * IZR n) else 0).
Proof.
  intros n bx by_ ps N Hn Bx By Ex Ey Hw.
  destruct (render_spec _ _ (histogram_ok n bx by_ ps)) as (img & E & V). exists img. split; [exact E|].
  intros i j Hi Hj. rewrite V, value_at_flat_map. unfold sum_copies2. apply sumR_ext. intros p Hp.
  destruct (Hw p Hp) as (Wx & Wy). unfold histogram_part. rewrite value_copies2.
  rewrite <- (tiles2 bx by_ N (fun x y => if in_pixelb n i x && in_pixelb n j y then p_m p * (IZR n * IZR n) else 0)); auto.
  - apply sumR_ext. intros a _. apply sumR_ext. intros b _. rewrite histogram_at_spec. cbv zeta.
    rewrite !in_pixelb_floor. set (cx := floor _). set (cy := floor _).
    destruct (inside n cx && inside n cy) eqn:I.
    + rewrite value_at_one, cell2_eqb. reflexivity.
    + rewrite value_nil. destruct (Z.eqb_spec cx i), (Z.eqb_spec cy j); cbn; auto. subst i j.
      rewrite (proj2 (inside_iff n cx)), (proj2 (inside_iff n cy)) in I by auto. discriminate.
  - intros a v Ha. rewrite left_out_pixel; auto.
  - intros b u Hb. rewrite (left_out_pixel n by_); auto. rewrite andb_false_r. reflexivity.
Qed.

Example C39_case : let p := mkpart (1 / 4) (3 / 4) 0 5 0 in
  (0 <= p_x p < 1 /\ 0 <= p_y p < 1) /\ wrapped (3 / 10) (p_x p) /\ enough (3 / 10) 4.
Proof. cbn. unfold wrapped, enough. repeat split; try lra; right; try lra. split; [lia|lra]. Qed.

(** * C40: the renormalised projection *)

(** The mass deposited by a particle away from the edge, with a kernel wider than a pixel. *)
Theorem C40_deposited : forall n p, (1 <= n)%Z -> 0 <= p_h p -> 1 <= width2 p * IZR n ->
  interior n (width2 p) (p_x p) -> interior n (width2 p) (p_y p) ->
  let ring := weights n p (spans n (width2 p)) - weights n p (spans n (width2 p) - 1) in
  exists img, renormalised n 0 0 [p] = Ok img /\
    0 < weights n p (spans n (width2 p) - 1) /\
    total2 n img * (1 / IZR n * (1 / IZR n)) = p_m p + p_m p * (ring / weights n p (spans n (width2 p) - 1)).
Proof.
  intros n p Hn Hh Hw Ix Iy ring. pose proof (n_pos n Hn) as Np.
  assert (Wp : 0 < width2 p) by nra.
  assert (O : ok_writes (square n) (flat_map (renormalised_part n 0 0) [p])).
  { apply ok_flat_map. intros q _. apply copies2_ok. intros. apply renormalised_at_ok. }
  destruct (render_spec _ _ O) as (img & E & _). exists img. split; [exact E|].
  assert (S2 : (2 <= spans n (width2 p))%Z) by (unfold spans; apply floor_le; lra).
  assert (P : 0 < weights n p (spans n (width2 p) - 1)).
  { rewrite <- kweights_spec by auto. apply kweights_pos; auto. lia. }
  split; [exact P|]. rewrite (total2_render n _ img E).
  assert (F : flat_map (renormalised_part n 0 0) [p] = renormalised_at n (p_m p) (p_h p) (p_x p) (p_y p)).
  { cbn [flat_map]. rewrite app_nil_r. unfold renormalised_part, copies2, shifts.
    destruct (Req_EM_T 0 0); [|contradiction]. change (zrange 0 1) with [0%Z]. cbn [flat_map].
    rewrite !app_nil_r. f_equal; ring. }
  rewrite F. pose proof (renormalised_at_total n (p_m p) (p_h p) (p_x p) (p_y p) Hn Hh) as T. cbv zeta in T.
  change (gamma2 * p_h p) with (width2 p) in T. rewrite T by auto. fold (spans n (width2 p)).
  rewrite !kweights_spec by auto. unfold ring. field. lra.
Qed.

(** The mass is conserved exactly if the weights of the outer ring of pixels, which the
    normalisation leaves out, are zero. *)
Theorem C40_conserved_iff : forall n p, (1 <= n)%Z -> 0 <= p_h p -> 1 <= width2 p * IZR n ->
  interior n (width2 p) (p_x p) -> interior n (width2 p) (p_y p) -> p_m p <> 0 ->
  exists img, renormalised n 0 0 [p] = Ok img /\
    (total2 n img * (1 / IZR n * (1 / IZR n)) = p_m p <->
     weights n p (spans n (width2 p)) = weights n p (spans n (width2 p) - 1)).
Proof.
  intros n p Hn Hh Hw Ix Iy Hm. destruct (C40_deposited n p Hn Hh Hw Ix Iy) as (img & E & P & T).
  exists img. split; [exact E|]. rewrite T.
  set (A := weights n p (spans n (width2 p))) in *. set (B := weights n p (spans n (width2 p) - 1)) in *.
  split; intro H.
  - assert (D : (A - B) / B = 0). { apply (Rmult_eq_reg_l (p_m p)); auto. lra. }
    assert (A - B = 0); [|lra]. replace (A - B) with ((A - B) / B * B) by (field; lra). rewrite D. ring.
  - rewrite H. unfold Rminus. rewrite Rplus_opp_r. unfold Rdiv. ring.
Qed.

(** A kernel narrower than a pixel puts all the mass in one pixel. *)
Theorem C40_small : forall n p, (1 <= n)%Z -> 0 <= p_h p -> width2 p * IZR n < 1 ->
  0 <= p_x p < 1 -> 0 <= p_y p < 1 ->
  exists img, renormalised n 0 0 [p] = Ok img /\ total2 n img * (1 / IZR n * (1 / IZR n)) = p_m p.
Proof.
  intros n p Hn Hh Hw Hx Hy. pose proof (n_pos n Hn) as Np.
  assert (O : ok_writes (square n) (flat_map (renormalised_part n 0 0) [p])).
  { apply ok_flat_map. intros q _. apply copies2_ok. intros. apply renormalised_at_ok. }
  destruct (render_spec _ _ O) as (img & E & _). exists img. split; [exact E|].
  rewrite (total2_render n _ img E).
  assert (F : flat_map (renormalised_part n 0 0) [p] = renormalised_at n (p_m p) (p_h p) (p_x p) (p_y p)).
  { cbn [flat_map]. rewrite app_nil_r. unfold renormalised_part, copies2, shifts.
    destruct (Req_EM_T 0 0); [|contradiction]. change (zrange 0 1) with [0%Z]. cbn [flat_map].
    rewrite !app_nil_r. f_equal; ring. }
  rewrite F. unfold renormalised_at. change (gamma2 * p_h p) with (width2 p).
  assert (W0 : 0 <= width2 p) by (unfold width2; lra).
  destruct (spanned (width2 p) n Hn W0) as (S1 & S2).
  assert (Ix : inside n (floor (IZR n * p_x p)) = true).
  { rewrite inside_unit by auto. unfold unitb. destruct (Rle_dec 0 (p_x p)); [|lra]. destruct (Rlt_dec (p_x p) 1); [auto|lra]. }
  assert (Iy : inside n (floor (IZR n * p_y p)) = true).
  { rewrite inside_unit by auto. unfold unitb. destruct (Rle_dec 0 (p_y p)); [|lra]. destruct (Rlt_dec (p_y p) 1); [auto|lra]. }
  rewrite !pixel_not_missed by (auto; apply inside_iff; auto). cbn [orb].
  assert (T1 : (trunc (1 + width2 p * IZR n) <= 1)%Z) by (apply IZR_le_lt; lra).
  replace (trunc (1 + width2 p * IZR n) <=? 1)%Z with true by (symmetry; apply Z.leb_le; exact T1).
  rewrite Ix, Iy. cbn [andb map snd]. rewrite sumR_cons, sumR_nil. field. lra.
Qed.

(** The weights only grow with the square. *)
Lemma weights_ring : forall n p r i j, (1 <= n)%Z -> 0 < width2 p -> (1 <= r)%Z ->
  i = (floor (IZR n * p_x p) + r)%Z -> j = floor (IZR n * p_y p) ->
  weights n p (r - 1) + W2 (dist2 (centre n i) (centre n j) (p_x p) (p_y p)) (width2 p) <= weights n p r.
Proof.
  intros n p r i j Hn Hw Hr Ei Ej. unfold weights. set (cx := floor (IZR n * p_x p)) in *. set (cy := floor (IZR n * p_y p)) in *.
  set (K := fun i j => W2 (dist2 (centre n i) (centre n j) (p_x p) (p_y p)) (width2 p)).
  assert (N : forall a b, 0 <= K a b). { intros. unfold K. rewrite <- kernel2_W2 by (auto; apply dist2_nonneg). apply kernel2_nonneg; auto. apply dist2_nonneg. }
  set (row := fun q a => sumR (map (K a) (zrange (cy - q) (cy + q + 1)))).
  assert (Row : forall a, row (r - 1)%Z a <= row r a).
  { intro a. unfold row. rewrite (zrange_cons (cy - r)), (zrange_snoc (cy - r + 1) (cy + r)) by lia. cbn [map]. rewrite map_app, sumR_cons, sumR_app.
    cbn [map]. rewrite sumR_cons, sumR_nil. replace (cy - (r - 1))%Z with (cy - r + 1)%Z by lia.
    replace (cy + (r - 1) + 1)%Z with (cy + r)%Z by lia. pose proof (N a (cy - r)%Z). pose proof (N a (cy + r)%Z). lra. }
  change (sumR (map (row (r - 1)%Z) (zrange (cx - (r - 1)) (cx + (r - 1) + 1))) + K i j
    <= sumR (map (row r) (zrange (cx - r) (cx + r + 1)))).
  rewrite (zrange_cons (cx - r)), (zrange_snoc (cx - r + 1) (cx + r)) by lia. cbn [map]. rewrite map_app, sumR_cons, sumR_app. cbn [map].
  rewrite sumR_cons, sumR_nil. replace (cx - (r - 1))%Z with (cx - r + 1)%Z by lia.
  replace (cx + (r - 1) + 1)%Z with (cx + r)%Z by lia.
  assert (A1 : sumR (map (row (r - 1)%Z) (zrange (cx - r + 1) (cx + r))) <= sumR (map (row r) (zrange (cx - r + 1) (cx + r)))).
  { apply sumR_le. intros a _. apply Row. }
  assert (A2 : 0 <= row r (cx - r)%Z). { apply sumR_nonneg. intros b _. apply N. }
  assert (A3 : K i j <= row r (cx + r)%Z).
  { subst i. unfold row. apply (sumR_ge_one (K (cx + r)%Z)); [apply In_zrange; subst j; lia|]. intros b _. apply N. }
  lra.
Qed.

Theorem C40_not_conserved_refuted : exists n p img, (1 <= n)%Z /\ 0 < p_h p /\
  interior n (width2 p) (p_x p) /\ interior n (width2 p) (p_y p) /\
  renormalised n 0 0 [p] = Ok img /\ p_m p < total2 n img * (1 / IZR n * (1 / IZR n)).
Proof.
  set (p := mkpart (59 / 100) (55 / 100) 0 1 (29 / 100 / gamma2)).
  assert (Ew : width2 p = 29 / 100). { unfold width2, gamma2, p. cbn [p_h]. unfold gamma2. field. }
  assert (Hh : 0 < p_h p) by (unfold p, gamma2; cbn [p_h]; unfold gamma2; lra).
  assert (Es : spans 10 (width2 p) = 3%Z). { rewrite Ew. unfold spans. apply floor_unique. lra. }
  assert (Cx : floor (10 * p_x p) = 5%Z) by (unfold p; cbn [p_x]; apply floor_unique; lra).
  assert (Cy : floor (10 * p_y p) = 5%Z) by (unfold p; cbn [p_y]; apply floor_unique; lra).
  assert (Ix : interior 10 (width2 p) (p_x p)) by (unfold interior; rewrite Es, Cx; lia).
  assert (Iy : interior 10 (width2 p) (p_y p)) by (unfold interior; rewrite Es, Cy; lia).
  destruct (C40_deposited 10 p) as (img & E & P & T); auto; try lia; try lra.
  exists 10%Z, p, img. split; [lia|]. split; [exact Hh|]. split; [exact Ix|]. split; [exact Iy|]. split; [exact E|].
  rewrite T. rewrite Es in *.
  assert (R := weights_ring 10 p 3 8 5 ltac:(lia) ltac:(rewrite Ew; lra) ltac:(lia)). rewrite Cx, Cy in R.
  specialize (R eq_refl eq_refl).
  assert (0 < W2 (dist2 (centre 10 8) (centre 10 5) (p_x p) (p_y p)) (width2 p)).
  { rewrite Ew. rewrite <- kernel2_W2; [|lra|apply dist2_nonneg]. apply kernel2_pos; [lra|apply dist2_nonneg|].
    unfold dist2, centre, p. cbn [p_x p_y].
    apply (Rle_lt_trans _ (sqrt (26 / 100 * (26 / 100)))).
    - apply sqrt_le_1_alt. lra.
    - rewrite sqrt_square; lra. }
  assert (0 < (weights 10 p 3 - weights 10 p (3 - 1)) / weights 10 p (3 - 1)) by (apply Rdiv_lt_0_compat; lra).
  replace (p_m p) with 1 by reflexivity. lra.
Qed.

(** * C41: slices and volumes *)

Lemma slice_ok : forall n zs bx by_ bz ps, ok_writes (square n) (flat_map (slice_part n zs bx by_ bz) ps).
Proof. intros. apply ok_flat_map. intros p _. apply copies3_ok. intros. apply slice_at_ok. Qed.
Lemma volume_ok : forall n bx by_ bz ps, ok_writes (cube n) (flat_map (volume_part n bx by_ bz) ps).
Proof. intros. apply ok_flat_map. intros p _. apply copies3_ok. intros. apply voxel_at_ok. Qed.

Lemma dist3_nonneg : forall a b c d e f, 0 <= dist3 a b c d e f.
Proof. intros. apply sqrt_pos. Qed.

(** A pixel of a slice is the kernel sum over the copies, without those whose upper row it
    is in. *)
Theorem C41_slice_pixels : forall xres yres zs bx by_ bz ps N, let n := Z.max xres yres in
  (1 <= n)%Z -> 0 <= bx -> 0 <= by_ -> 0 <= bz -> enough bx N -> enough by_ N -> enough bz N ->
  bz = 0 \/ (0 <= zs /\ (zs <= 1 \/ zs < bz)) ->
  (forall p, In p ps -> settled3 bx by_ bz p /\ 0 < p_h p) ->
  exists img, slice_scatter xres yres zs bx by_ bz ps = Ok img /\
    forall i j, (0 <= i < n)%Z -> (0 <= j < n)%Z ->
      img [i; j] = sum_copies3 bx by_ bz N ps (fun p x y z =>
        if above n (width3 p) x i || above n (width3 p) y j then 0
        else p_m p * W3 (dist3 (centre n i) (centre n j) zs x y z) (width3 p)).
Proof.
  intros xres yres zs bx by_ bz ps N n Hn Bx By Bz Ex Ey Ez Z0 Hs. unfold slice_scatter. fold n.
  destruct (render_spec _ _ (slice_ok n zs bx by_ bz ps)) as (img & E & V). exists img. split; [exact E|].
  intros i j Hi Hj. rewrite V, value_at_flat_map. unfold sum_copies3. apply sumR_ext. intros p Hp.
  destruct (Hs p Hp) as ((_ & Wx & Wy & Wz & Fx & Fy & Fz) & Hh).
  change (width3 p) with (gamma3 * p_h p) in *.
  unfold slice_part. rewrite value_copies3.
  transitivity (sumR (map (fun a => sumR (map (fun b => sumR (map (fun c =>
    slice_value n zs (p_m p) (gamma3 * p_h p) (p_x p + IZR a * bx) (p_y p + IZR b * by_) (p_z p + IZR c * bz) i j)
    (shifts bz))) (shifts by_))) (shifts bx))).
  { apply sumR_ext. intros a _. apply sumR_ext. intros b _. apply sumR_ext. intros c _. apply slice_at_value; auto. }
  rewrite (tiles3 bx by_ bz N (fun x y z => slice_value n zs (p_m p) (gamma3 * p_h p) x y z i j)); auto.
  - apply sumR_ext. intros a _. apply sumR_ext. intros b _. apply sumR_ext. intros c _. unfold slice_value.
    destruct (above _ _ _ i || above _ _ _ j); [reflexivity|]. rewrite kernel3_W3; auto; [|apply dist3_nonneg].
    pose proof gamma3_pos. nra.
  - intros a v t Ha. apply (slice_value_left n zs (p_m p) (p_h p) bx by_ bz (p_x p) (p_y p) (p_z p) a a a); auto.
  - intros b u t Hb. apply (slice_value_left n zs (p_m p) (p_h p) bx by_ bz (p_x p) (p_y p) (p_z p) b b b); auto.
  - intros c u v Hc. apply (slice_value_left n zs (p_m p) (p_h p) bx by_ bz (p_x p) (p_y p) (p_z p) c c c); auto.
Qed.

(** The same for volumes, with kernels of less than half a voxel in a single voxel. *)
Definition deposit3 (n : Z) (p : part) (x y z : R) (i j k : Z) : R :=
  if Rlt_dec (width3 p * IZR n) (/ 2) then
    (if in_pixelb n i x && in_pixelb n j y && in_pixelb n k z then p_m p * (IZR n * IZR n * IZR n) else 0)
  else if above n (width3 p) x i || above n (width3 p) y j || above n (width3 p) z k then 0
  else p_m p * W3 (dist3 (centre n i) (centre n j) (centre n k) x y z) (width3 p).

Theorem C41_volume_voxels : forall n bx by_ bz ps N,
  (1 <= n)%Z -> 0 <= bx -> 0 <= by_ -> 0 <= bz -> enough bx N -> enough by_ N -> enough bz N ->
  (forall p, In p ps -> settled3 bx by_ bz p) ->
  exists img, volume n bx by_ bz ps = Ok img /\
    forall i j k, (0 <= i < n)%Z -> (0 <= j < n)%Z -> (0 <= k < n)%Z ->
      img [i; j; k] = sum_copies3 bx by_ bz N ps (fun p x y z => deposit3 n p x y z i j k).
Proof.
  intros n bx by_ bz ps N Hn Bx By Bz Ex Ey Ez Hs.
  destruct (render_spec _ _ (volume_ok n bx by_ bz ps)) as (img & E & V). exists img. split; [exact E|].
  intros i j k Hi Hj Hk. rewrite V, value_at_flat_map. unfold sum_copies3. apply sumR_ext. intros p Hp.
  destruct (Hs p Hp) as (Hh & Wx & Wy & Wz & Fx & Fy & Fz).
  change (width3 p) with (gamma3 * p_h p) in *.
  unfold volume_part. rewrite value_copies3.
  transitivity (sumR (map (fun a => sumR (map (fun b => sumR (map (fun c =>
    voxel_value n n (p_m p) (gamma3 * p_h p) (p_x p + IZR a * bx) (p_y p + IZR b * by_) (p_z p + IZR c * bz) i j k)
    (shifts bz))) (shifts by_))) (shifts bx))).
  { apply sumR_ext. intros a _. apply sumR_ext. intros b _. apply sumR_ext. intros c _. apply voxel_at_value; auto. }
  rewrite (tiles3 bx by_ bz N (fun x y z => voxel_value n n (p_m p) (gamma3 * p_h p) x y z i j k)); auto.
  - apply sumR_ext. intros a _. apply sumR_ext. intros b _. apply sumR_ext. intros c _. unfold voxel_value, deposit3.
    change (width3 p) with (gamma3 * p_h p) in *.
    destruct (Rlt_dec (gamma3 * p_h p * IZR n) (/ 2)) as [L|L]; [reflexivity|].
    destruct (above _ _ _ i || above _ _ _ j || above _ _ _ k); [reflexivity|]. rewrite kernel3_W3; auto; [|apply dist3_nonneg].
    pose proof (n_pos n Hn). pose proof gamma3_pos. nra.
  - intros a v t Ha. apply (voxel_value_left n (p_m p) (p_h p) bx by_ bz (p_x p) (p_y p) (p_z p) a a a); auto.
  - intros b u t Hb. apply (voxel_value_left n (p_m p) (p_h p) bx by_ bz (p_x p) (p_y p) (p_z p) b b b); auto.
  - intros c u v Hc. apply (voxel_value_left n (p_m p) (p_h p) bx by_ bz (p_x p) (p_y p) (p_z p) c c c); auto.
Qed.

(** The row left out can hold a non-zero kernel value, and reflecting the particle (x to
    1 - x) does not reflect the image. *)
Definition near (x y z : R) : part := mkpart x y z 1 (2 / 10 / gamma3).

Lemma near_width : forall x y z, width3 (near x y z) = 2 / 10.
Proof. intros. unfold width3, near, gamma3. cbn [p_h]. unfold gamma3. field. Qed.
Lemma near_h : forall x y z, 0 < p_h (near x y z).
Proof. intros. unfold near, gamma3. cbn [p_h]. unfold gamma3. lra. Qed.
Lemma near_settled : forall x y z, settled3 0 0 0 (near x y z).
Proof.
  intros. unfold settled3, wrapped, fits. pose proof (near_h x y z). repeat split; try (left; reflexivity). lra.
Qed.

Lemma sum_copies3_single : forall p f, sum_copies3 0 0 0 1 [p] f = f p (p_x p) (p_y p) (p_z p).
Proof.
  intros p f. unfold sum_copies3, all_copies. destruct (Req_EM_T 0 0); [|contradiction]. cbn [map].
  rewrite !sumR_cons, !sumR_nil, !Rplus_0_r. f_equal; ring.
Qed.

Theorem C41_slice_refuted : exists n p q a b, (1 <= n)%Z /\ p_x q = 1 - p_x p /\
  p_y q = p_y p /\ p_z q = p_z p /\ p_m q = p_m p /\ p_h q = p_h p /\ 0 < p_h p /\
  slice_scatter n n (p_z p) 0 0 0 [p] = Ok a /\ slice_scatter n n (p_z q) 0 0 0 [q] = Ok b /\
  exists i j, (0 <= i < n)%Z /\ (0 <= j < n)%Z /\
    0 < p_m p * W3 (dist3 (centre n i) (centre n j) (p_z p) (p_x p) (p_y p) (p_z p)) (width3 p) /\
    a [i; j] = 0 /\ 0 < b [(n - 1 - i)%Z; j].
Proof.
  set (p := near (475 / 1000) (375 / 1000) 0). set (q := near (525 / 1000) (375 / 1000) 0).
  assert (H0 : forall x : R, 0 <= x -> x <= 0 -> enough x 1) by (intros; left; lra).
  assert (Ks : forall u v, (u = 625 / 1000 /\ v = 475 / 1000) \/ (u = 375 / 1000 /\ v = 525 / 1000) ->
    0 < 1 * W3 (dist3 u (375 / 1000) 0 v (375 / 1000) 0) (2 / 10)).
  { intros u v D. rewrite Rmult_1_l, <- kernel3_W3; [|lra|apply dist3_nonneg].
    apply kernel3_pos; [lra|apply dist3_nonneg|]. unfold dist3.
    assert ((u - v) * (u - v) = 225 / 10000) by (destruct D as [(-> & ->)|(-> & ->)]; lra).
    apply (Rle_lt_trans _ (sqrt (15 / 100 * (15 / 100)))); [apply sqrt_le_1_alt; lra|]. rewrite sqrt_square; lra. }
  assert (C : centre 4 1 = 375 / 1000) by (unfold centre; lra).
  assert (C2 : centre 4 2 = 625 / 1000) by (unfold centre; lra).
  assert (S : floor (1 + 2 / 10 * 4) = 1%Z) by (apply floor_unique; lra).
  destruct (C41_slice_pixels 4 4 0 0 0 0 [p] 1) as (a & Ea & Va); try lia; try lra; try (left; reflexivity).
  { intros r [<-|[]]. split; [apply near_settled|apply near_h]. }
  destruct (C41_slice_pixels 4 4 0 0 0 0 [q] 1) as (b & Eb & Vb); try lia; try lra; try (left; reflexivity).
  { intros r [<-|[]]. split; [apply near_settled|apply near_h]. }
  exists 4%Z, p, q, a, b. cbn [p_x p_y p_z p_m p_h p q near].
  split; [lia|]. split; [lra|]. split; [reflexivity|]. split; [reflexivity|]. split; [reflexivity|]. split; [reflexivity|].
  split; [apply (near_h 0 0 0)|]. split; [exact Ea|]. split; [exact Eb|].
  exists 2%Z, 1%Z. split; [lia|]. split; [lia|].
  change (width3 p) with (width3 (near (475 / 1000) (375 / 1000) 0)).
  rewrite near_width. split; [|split].
  - rewrite C, C2. apply Ks. left. split; reflexivity.
  - rewrite Va by (cbn; lia). rewrite sum_copies3_single. unfold p. rewrite near_width. unfold above. cbn [near p_x p_y p_z p_m].
    change (Z.max 4 4) with 4%Z. rewrite S. rewrite (floor_unique (4 * (475 / 1000)) 1) by lra. reflexivity.
  - change (4 - 1 - 2)%Z with 1%Z. rewrite Vb by (cbn; lia). rewrite sum_copies3_single. unfold q. rewrite near_width.
    unfold above. cbn [near p_x p_y p_z p_m]. change (Z.max 4 4) with 4%Z. rewrite S.
    rewrite (floor_unique (4 * (525 / 1000)) 2) by lra. rewrite (floor_unique (4 * (375 / 1000)) 1) by lra.
    change ((1 =? 2 + 1)%Z || (1 =? 1 + 1)%Z) with false. cbv iota. rewrite C. apply Ks. right. split; reflexivity.
Qed.

Theorem C41_volume_refuted : exists n p q a b, (1 <= n)%Z /\ p_x q = 1 - p_x p /\
  p_y q = p_y p /\ p_z q = p_z p /\ p_m q = p_m p /\ p_h q = p_h p /\ 0 < p_h p /\
  volume n 0 0 0 [p] = Ok a /\ volume n 0 0 0 [q] = Ok b /\
  exists i j k, (0 <= i < n)%Z /\ (0 <= j < n)%Z /\ (0 <= k < n)%Z /\
    0 < p_m p * W3 (dist3 (centre n i) (centre n j) (centre n k) (p_x p) (p_y p) (p_z p)) (width3 p) /\
    a [i; j; k] = 0 /\ 0 < b [(n - 1 - i)%Z; j; k].
Proof.
  set (p := near (475 / 1000) (375 / 1000) (375 / 1000)). set (q := near (525 / 1000) (375 / 1000) (375 / 1000)).
  assert (Ks : forall u v, (u = 625 / 1000 /\ v = 475 / 1000) \/ (u = 375 / 1000 /\ v = 525 / 1000) ->
    0 < 1 * W3 (dist3 u (375 / 1000) (375 / 1000) v (375 / 1000) (375 / 1000)) (2 / 10)).
  { intros u v D. rewrite Rmult_1_l, <- kernel3_W3; [|lra|apply dist3_nonneg].
    apply kernel3_pos; [lra|apply dist3_nonneg|]. unfold dist3.
    assert ((u - v) * (u - v) = 225 / 10000) by (destruct D as [(-> & ->)|(-> & ->)]; lra).
    apply (Rle_lt_trans _ (sqrt (15 / 100 * (15 / 100)))); [apply sqrt_le_1_alt; lra|]. rewrite sqrt_square; lra. }
  assert (C : centre 4 1 = 375 / 1000) by (unfold centre; lra).
  assert (C2 : centre 4 2 = 625 / 1000) by (unfold centre; lra).
  assert (S : floor (1 + 2 / 10 * 4) = 1%Z) by (apply floor_unique; lra).
  destruct (C41_volume_voxels 4 0 0 0 [p] 1) as (a & Ea & Va); try lia; try lra; try (left; reflexivity).
  { intros r [<-|[]]. apply near_settled. }
  destruct (C41_volume_voxels 4 0 0 0 [q] 1) as (b & Eb & Vb); try lia; try lra; try (left; reflexivity).
  { intros r [<-|[]]. apply near_settled. }
  exists 4%Z, p, q, a, b. cbn [p_x p_y p_z p_m p_h p q near].
  split; [lia|]. split; [lra|]. split; [reflexivity|]. split; [reflexivity|]. split; [reflexivity|]. split; [reflexivity|].
  split; [apply (near_h 0 0 0)|]. split; [exact Ea|]. split; [exact Eb|].
  exists 2%Z, 1%Z, 1%Z. split; [lia|]. split; [lia|]. split; [lia|].
  change (width3 p) with (width3 (near (475 / 1000) (375 / 1000) (375 / 1000))).
  rewrite near_width. split; [|split].
  - rewrite C, C2. apply Ks. left. split; reflexivity.
  - rewrite Va by lia. rewrite sum_copies3_single. unfold deposit3, p. rewrite near_width.
    destruct (Rlt_dec (2 / 10 * 4) (/ 2)); [lra|]. unfold above. cbn [near p_x p_y p_z p_m].
    rewrite S. rewrite (floor_unique (4 * (475 / 1000)) 1) by lra. reflexivity.
  - change (4 - 1 - 2)%Z with 1%Z. rewrite Vb by lia. rewrite sum_copies3_single. unfold deposit3, q. rewrite near_width.
    destruct (Rlt_dec (2 / 10 * 4) (/ 2)); [lra|]. unfold above. cbn [near p_x p_y p_z p_m]. rewrite S.
    rewrite (floor_unique (4 * (525 / 1000)) 2) by lra. rewrite (floor_unique (4 * (375 / 1000)) 1) by lra.
    change ((1 =? 2 + 1)%Z || (1 =? 1 + 1)%Z || (1 =? 1 + 1)%Z) with false. cbv iota. rewrite C. apply Ks. right. split; reflexivity.
Qed.

Print Assumptions C36_each_particle_once.
Print Assumptions C36_fast.
Print Assumptions C36_gpu.
Print Assumptions C36_gpu_interleaved.
Print Assumptions C36_limited_z_refuted.
Print Assumptions C36_single_layer_refuted.
Print Assumptions C37_copies_complete.
Print Assumptions C37_limited_z_refuted.
Print Assumptions C38_pixels.
Print Assumptions C38_in_bounds.
Print Assumptions C39_total.
Print Assumptions C39_full_box.
Print Assumptions C39_pixels.
Print Assumptions C40_deposited.
Print Assumptions C40_conserved_iff.
Print Assumptions C40_small.
Print Assumptions C40_not_conserved_refuted.
Print Assumptions C41_slice_pixels.
Print Assumptions C41_volume_voxels.
Print Assumptions C41_slice_refuted.
Print Assumptions C41_volume_refuted.

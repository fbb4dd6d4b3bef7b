(** C143 and C144 for the parallel backends: the same bounds whatever the order in which threads are run and
    their images added. *)
From Coq Require Import List ZArith QArith Bool Reals Lia Lra Psatz Qreals Permutation.
From Flocq Require Import Core.
From Verif Require Import Base BaseLemmas RoundModel RoundFloatModel RoundFloatTheorems WrapSpec WrapTheorems KroundTheorems.
From Verif Require Import RoundSumSpec RoundSumModel RoundSumProofs RoundSumTheorems PixTheorems SolidTheorems.
From Verif Require VisModel.
Import ListNotations.
Open Scope R_scope.

Lemma sums_close {K : Type} c (W : K -> list (list Z * R)) (ex er : K -> R) ks : Forall (fun k => near c (W k) (ex k) (er k)) ks ->
  Rabs (summed (fun v => v) c (flat_map W ks) - sum ex ks) <= sum er ks
  /\ 0 <= summed Rabs c (flat_map W ks) <= sum (fun k => Rabs (ex k) + er k) ks /\ (times c (flat_map W ks) <= length ks)%nat.
Proof.
  intro F.
  assert (T : Rabs (summed (fun v => v) c (flat_map W ks) - sum ex ks) <= sum er ks
    /\ summed Rabs c (flat_map W ks) <= sum (fun k => Rabs (ex k) + er k) ks /\ summed (fun _ => 1) c (flat_map W ks) <= INR (length ks)).
  { induction F as [|k ks (N1 & N2 & N3) F (IH1 & IH2 & IH3)]; [cbn; rewrite Rminus_0_r, Rabs_R0; repeat split; lra|].
    cbn [flat_map length]. unfold sum in *. cbn [fold_right]. rewrite !summed_app, S_INR. repeat match goal with |- _ /\ _ => split end.
    - match goal with |- Rabs (?a + ?b - (?c + ?d)) <= _ => replace (a + b - (c + d)) with ((a - c) + (b - d)) by ring end.
      eapply Rle_trans; [apply Rabs_triang|]. apply Rplus_le_compat; assumption.
    - apply Rplus_le_compat; assumption.
    - apply le_INR in N3. rewrite times_summed in N3. cbn [INR] in N3. lra. }
  destruct T as (S1 & S2 & S3). rewrite <- times_summed in S3. apply INR_le in S3. split; [exact S1|]. split; [|exact S3]. split; [|exact S2].
  clear. induction (flat_map W ks) as [|[d v] l IH]; cbn [summed]; [lra|]. pose proof (Rabs_pos v). destruct (list_eq_dec Z.eq_dec d c); lra.
Qed.

(** [more] roundings beyond one for each copy: one for each thread and each group of threads (C115). *)
Lemma parallel_image {K : Type} store u f ps threads groups c (W : K -> list (list Z * R)) (ex er : K -> R) ks : stored store u -> (1 <= threads)%Z ->
  Permutation (concat groups) (zrange 0 threads) -> flat_map f ps = flat_map W ks -> Forall (fun k => near c (W k) (ex k) (er k)) ks ->
  Rabs (parallel rounded store f ps threads groups c - sum ex ks)
  <= sum er ks + ((1 + u) ^ (length ks + Z.to_nat threads + length groups) - 1) * sum (fun k => Rabs (ex k) + er k) ks.
Proof.
  intros St T Pm E F. destruct (sums_close c W ex er ks F) as (S1 & [A0 S2] & S3).
  pose proof (C115_parallel store u f ps threads groups c St T Pm) as P. unfold within_roundings in P. rewrite E in P.
  assert (U0 : 0 <= u) by (pose proof (eps_pos 24); pose proof (eps_pos 53); destruct St; nra).
  set (k := (times c (flat_map W ks) + Z.to_nat threads + length groups)%nat) in *.
  assert (PW : (1 + u) ^ k - 1 <= (1 + u) ^ (length ks + Z.to_nat threads + length groups) - 1) by (apply Rplus_le_compat_r, Rle_pow; [lra|unfold k; lia]).
  assert (P0 : 0 <= (1 + u) ^ k - 1) by (pose proof (pow_R1_Rle (1 + u) k ltac:(lra)); lra).
  pose proof (Rmult_le_compat _ _ _ _ P0 A0 PW S2) as M.
  set (d := parallel rounded store _ _ _ _ _) in *. set (s := summed (fun v => v) _ _) in *. clearbody d. change (num rounded) with R in d.
  replace (d - sum ex ks) with ((s - sum ex ks) + (d - s)) by ring. eapply Rle_trans; [apply Rabs_triang|].
  apply Rplus_le_compat; [exact S1|]. eapply Rle_trans; [exact P|exact M].
Qed.

(** * Projections *)

Lemma fast_near n i j k : (1 <= n < 2 ^ 24)%Z -> (0 <= i < n)%Z -> (0 <= j < n)%Z -> resolved n k ->
  near [i; j] (writes_of n k) (exact_of n i j k) (error_of k).
Proof.
  intros Hn Hi Hj (Hh & B & Bx & By). pose proof (C143_wide n (k_h k) Hn Hh B) as W.
  destruct (copy_value n (k_m k) (k_h k) (k_x k) (k_y k) i j Hn Hi Hj Hh W (proj2 B) Bx By) as [E|[E E0]].
  - exact (near_value _ _ _ _ _ E (C143_value n (k_m k) (k_h k) (k_x k) (k_y k) i j Hn Hi Hj Hh)).
  - apply near_none; [exact E|]. unfold exact_of. rewrite E0, Rabs_R0. apply pixel_error_pos, Hh.
Qed.

Theorem C143_parallel : forall store u n bx by_ ps threads groups i j, stored store u -> (1 <= threads)%Z -> Permutation (concat groups) (zrange 0 threads) ->
  (1 <= n < 2 ^ 24)%Z -> (0 <= i < n)%Z -> (0 <= j < n)%Z ->
  let ts := turns bx by_ ps in Forall (resolved n) (copies bx by_ ps) ->
  let ex t := exact_of n i j (image_at bx by_ t) in
  let er t := error_of (copy_at bx by_ t) + moved_error bx by_ t in
  Rabs (parallel rounded store (fast_part rounded n bx by_) ps threads groups [i; j] - sum ex ts)
  <= sum er ts + ((1 + u) ^ (length ts + Z.to_nat threads + length groups) - 1) * sum (fun t => Rabs (ex t) + er t) ts.
Proof.
  intros store u n bx by_ ps threads groups i j St T Pm Hn Hi Hj ts F ex er.
  apply (parallel_image store u (fast_part rounded n bx by_) ps threads groups [i; j] (fun t => writes_of n (copy_at bx by_ t)) ex er ts St T Pm).
  - rewrite copies_written, copies_turns. unfold ts. rewrite !flat_map_concat_map, map_map. reflexivity.
  - rewrite copies_turns in F. rewrite Forall_map in F. eapply Forall_impl; [|exact F]. cbn beta. intros t Rt. eapply near_moved; [apply fast_near; assumption|].
    apply moved. apply Rt.
Qed.

(** * Slices and volumes *)

Theorem C144_slice_parallel : forall store u n zs bx by_ bz ps threads groups i j, stored store u -> (1 <= threads)%Z -> Permutation (concat groups) (zrange 0 threads) ->
  (1 <= n < 2 ^ 24)%Z -> (0 <= i < n)%Z -> (0 <= j < n)%Z ->
  let ts := turns3 (shifts rounded) bx by_ bz ps in
  Forall (fun t => 0 < r_h (t_p t) /\ placed bx by_ bz (fun x y _ => fits n (r_h (t_p t)) x /\ fits n (r_h (t_p t)) y) t) ts ->
  let ex t := exactly_placed bx by_ bz (fun x y z => slice_exact n zs (r_m (t_p t)) (r_h (t_p t)) x y z i j) t in
  let er t := placed bx by_ bz (slice_bound n zs (r_m (t_p t)) (r_h (t_p t))) t + moved3 bx by_ bz t in
  Rabs (parallel rounded store (slice_part rounded n zs bx by_ bz) ps threads groups [i; j] - sum ex ts)
  <= sum er ts + ((1 + u) ^ (length ts + Z.to_nat threads + length groups) - 1) * sum (fun t => Rabs (ex t) + er t) ts.
Proof.
  intros store u n zs bx by_ bz ps threads groups i j St T Pm Hn Hi Hj ts F ex er.
  eapply (parallel_image store u (slice_part rounded n zs bx by_ bz) ps threads groups [i; j] _ ex er ts St T Pm).
  - exact (flat_turns3 (shifts rounded) bx by_ bz (fun p => slice_at rounded n zs (r_m p) (r_h p)) ps).
  - eapply Forall_impl; [|exact F]. intros t (Hh & X & Y). unfold ex, er, placed, exactly_placed in *.
    eapply near_moved; [apply slice_near; assumption|]. unfold slice_exact, moved3. apply point_moved; [exact Hh|].
    rewrite !moved_abs. replace (shifted rounded (r_z (t_p t)) (t_z t) bz - zs - (r_z (t_p t) + IZR (t_z t) * bz - zs)) with (shifted rounded (r_z (t_p t)) (t_z t) bz - (r_z (t_p t) + IZR (t_z t) * bz))
      by (match goal with |- @eq _ ?a ?b => change (@eq R a b) end; ring).
    apply Rplus_le_compat; [apply Rplus_le_compat|]; apply shifted_close.
Qed.
Theorem C144_volume_parallel : forall store u n bx by_ bz ps threads groups i j k, stored store u -> (1 <= threads)%Z -> Permutation (concat groups) (zrange 0 threads) ->
  (1 <= n < 2 ^ 24)%Z -> (0 <= i < n)%Z -> (0 <= j < n)%Z -> (0 <= k < n)%Z ->
  let ts := turns3 (shifts rounded) bx by_ bz ps in
  Forall (fun t => 0 < r_h (t_p t) /\ open3 n (r_h (t_p t)) /\ placed bx by_ bz (fun x y z => fits n (r_h (t_p t)) x /\ fits n (r_h (t_p t)) y /\ fits n (r_h (t_p t)) z) t) ts ->
  let ex t := exactly_placed bx by_ bz (fun x y z => voxel_exact n n (r_m (t_p t)) (r_h (t_p t)) x y z i j k) t in
  let er t := placed bx by_ bz (voxel_bound n n (r_m (t_p t)) (r_h (t_p t))) t + moved3 bx by_ bz t in
  Rabs (parallel rounded store (volume_part rounded n bx by_ bz) ps threads groups [i; j; k] - sum ex ts)
  <= sum er ts + ((1 + u) ^ (length ts + Z.to_nat threads + length groups) - 1) * sum (fun t => Rabs (ex t) + er t) ts.
Proof.
  intros store u n bx by_ bz ps threads groups i j k St T Pm Hn Hi Hj Hk ts F ex er.
  eapply (parallel_image store u (volume_part rounded n bx by_ bz) ps threads groups [i; j; k] _ ex er ts St T Pm).
  - exact (flat_turns3 (shifts rounded) bx by_ bz (fun p => voxel_at rounded n n (r_m p) (r_h p)) ps).
  - eapply Forall_impl; [|exact F]. intros t (Hh & O & X & Y & Z). unfold ex, er, placed, exactly_placed in *.
    eapply near_moved; [apply voxel_near; assumption|]. unfold voxel_exact, moved3. apply point_moved; [exact Hh|].
    rewrite !moved_abs. apply Rplus_le_compat; [apply Rplus_le_compat|]; apply shifted_close.
Qed.

(** * Narrow kernels *)

(** A kernel that is not wide goes into the pixel of its particle, in full, whose position is found with one rounding. *)
Definition pixel_of (n : Z) (x : R) : Z := Zfloor (rnd 53 (IZR n * x)).
Lemma span_pos n h : (1 <= n < 2 ^ 24)%Z -> 0 < h -> (0 <= span rounded (single rounded (of_int rounded n)) (mul rounded (gamma2 rounded) h))%Z.
Proof.
  intros Hn Hh. destruct (width_close h Hh) as (g & G & ->). apply Rabs_le_inv in G. pose proof u24_value. pose proof u53_value.
  unfold span, one. cbn [rounded int32 add mul single of_int lit]. unfold rnd2. rewrite lit_1, single_int by lia.
  assert (N : 0 < IZR n) by (apply IZR_lt; lia).
  assert (P : 0 <= VisModel.gamma2 * h * g * IZR n) by (unfold VisModel.gamma2; repeat apply Rmult_le_pos; lra).
  apply rnd_le in P. rewrite rnd_0 in P. assert (Q : 0 <= 1 + rnd 53 (VisModel.gamma2 * h * g * IZR n)) by lra. apply rnd_le in Q. rewrite rnd_0 in Q.
  rewrite Ztrunc_floor by exact Q. apply Zfloor_lub. exact Q.
Qed.
Theorem C143_narrow : forall n m h x y i j, (1 <= n < 2 ^ 24)%Z -> (0 <= i < n)%Z -> (0 <= j < n)%Z -> 0 < h -> ~ wide n h ->
  (forall g, summed g [i; j] (fast_at rounded n m h x y)
     = if Z.eq_dec (pixel_of n x) i then if Z.eq_dec (pixel_of n y) j then g (rnd 53 (m * (IZR n * IZR n))) else 0 else 0)
  /\ Rabs (rnd 53 (m * (IZR n * IZR n)) - m * (IZR n * IZR n)) <= u53 * (Rabs m * (IZR n * IZR n))
  /\ (Rabs (IZR n * x) <= 2 ^ 30 -> IZR (pixel_of n x) - / 8 <= IZR n * x < IZR (pixel_of n x) + 1 + / 8).
Proof.
  intros n m h x y i j Hn Hi Hj Hh W. repeat match goal with |- _ /\ _ => split end.
  - intro g. unfold wide in W. pose proof (span_pos n h Hn Hh) as S0. unfold fast_at. cbv zeta. rewrite !cell_close. fold (pixel_of n x) (pixel_of n y).
    set (s := span rounded _ _) in *. set (cx := pixel_of n x). set (cy := pixel_of n y). clearbody s cx cy.
    destruct (s <=? 1)%Z eqn:L; [|apply Z.leb_gt in L; lia].
    destruct (outside n cx s || outside n cy s) eqn:Out.
    + unfold outside in Out. rewrite !orb_true_iff, !Z.ltb_lt in Out. cbn [summed]. destruct (Z.eq_dec cx i); [|reflexivity]. destruct (Z.eq_dec cy j); [lia|reflexivity].
    + destruct (within n cx && within n cy) eqn:In.
      * cbn [summed]. cbn [rounded mul of_int]. unfold rnd2. rewrite mult_IZR.
        destruct (list_eq_dec Z.eq_dec [cx; cy] [i; j]) as [E|E].
        -- injection E as -> ->. destruct (Z.eq_dec i i); [|congruence]. destruct (Z.eq_dec j j); [apply Rplus_0_r|congruence].
        -- rewrite Rplus_0_r. destruct (Z.eq_dec cx i) as [->|]; [|reflexivity]. destruct (Z.eq_dec cy j) as [->|]; [now destruct E|reflexivity].
      * cbn [summed]. unfold within in In. rewrite andb_false_iff, !andb_false_iff, !Z.leb_gt in In. destruct (Z.eq_dec cx i); [|reflexivity]. destruct (Z.eq_dec cy j); [lia|reflexivity].
  - pose proof (rnd_error_abs (m * (IZR n * IZR n))) as E. rewrite Rabs_mult, (Rabs_pos_eq (IZR n * IZR n)) in E by (apply Rmult_le_pos; apply IZR_le; lia). rewrite (Rmult_comm u53). exact E.
  - intro B. pose proof (cell_bounds n x B) as C. rewrite cell_close in C. exact C.
Qed.
(** Kernels of less than a tenth of a pixel are narrow. *)
Theorem C143_narrow_case : forall n h, (1 <= n < 2 ^ 24)%Z -> 0 < h -> IZR n * (VisModel.gamma2 * h) <= / 10 -> ~ wide n h.
Proof.
  intros n h Hn Hh B W. unfold wide in W. destruct (width_close h Hh) as (g & G & E). rewrite E in W. apply Rabs_le_inv in G. pose proof u24_value. pose proof u53_value.
  unfold span, one in W. cbn [rounded int32 add mul single of_int lit] in W. unfold rnd2 in W. rewrite lit_1, single_int in W by lia.
  assert (N : 0 < IZR n) by (apply IZR_lt; lia). assert (P : 0 < IZR n * (VisModel.gamma2 * h)) by (unfold VisModel.gamma2; apply Rmult_lt_0_compat; lra).
  replace (VisModel.gamma2 * h * g * IZR n) with (IZR n * (VisModel.gamma2 * h) * g) in W by ring. set (p := IZR n * (VisModel.gamma2 * h)) in *. clearbody p.
  destruct (fac_rnd (p * g)) as (a & Fa & Ea); [apply Rmult_le_pos; lra|]. rewrite Ea in W. pose proof (fac_pos _ _ Fa). apply fac_error in Fa; [|lia]. apply Rabs_le_inv in Fa.
  assert (Q : 0 <= p * g * a <= 1 / 5) by (split; [repeat apply Rmult_le_pos; lra|]; apply Rle_trans with (/ 10 * (11 / 10) * (11 / 10)); [repeat apply Rmult_le_compat; try lra; apply Rmult_le_pos; lra|lra]).
  destruct (fac_rnd (1 + p * g * a)) as (b & Fb & Eb); [lra|]. rewrite Eb in W. pose proof (fac_pos _ _ Fb). apply fac_error in Fb; [|lia]. apply Rabs_le_inv in Fb.
  assert (V : 0 <= (1 + p * g * a) * b < 2) by (split; [apply Rmult_le_pos; lra|]; apply Rle_lt_trans with (6 / 5 * (11 / 10)); [apply Rmult_le_compat; lra|lra]).
  rewrite Ztrunc_floor in W by lra. pose proof (Zfloor_lb ((1 + p * g * a) * b)) as Lb. assert (IZR (Zfloor ((1 + p * g * a) * b)) < 2) by lra. apply lt_IZR in H3. lia.
Qed.

Print Assumptions C143_parallel.
Print Assumptions C143_narrow.
Print Assumptions C143_narrow_case.
Print Assumptions C144_slice_parallel.
Print Assumptions C144_volume_parallel.

(** C121: where the compiled backends divide by zero. *)
From Coq Require Import List ZArith Reals Bool Lia Lra.
From Verif Require Import Base VisModel VisSumProofs DivModel DivSpec DivProofs.
Import ListNotations.
Open Scope R_scope.

(** For images of at least one pixel the projections and volume renderings of any particles never divide by zero: the
    loops with the tests give what the loops without them give. *)
Theorem C121_projections : forall n bx by_ ps, (0 < n)%Z ->
  fast_c n bx by_ ps = fast n bx by_ ps /\ histogram_c n bx by_ ps = histogram n bx by_ ps
  /\ renormalised_c n bx by_ ps = renormalised n bx by_ ps /\ reference_c n bx by_ ps = reference n bx by_ ps.
Proof. intros. rewrite fast_good, renormalised_good, reference_good, histogram_good by lia. auto. Qed.

(** Any number of dither evaluations above zero will do: the source uses 32 and 64. *)
Theorem C121_subsampled : forall evals dither n bx by_ ps, (0 < n)%Z -> (0 < dither)%Z ->
  subsampled_c evals dither n bx by_ ps = subsampled evals dither n bx by_ ps.
Proof. intros. now apply subsampled_good. Qed.

Theorem C121_volumes : forall n bx by_ bz ps, (0 < n)%Z -> volume_c n bx by_ bz ps = volume n bx by_ bz ps.
Proof. intros. now apply volume_good. Qed.

(** A slice divides by zero exactly if some particle without extent lies in its plane and in the image (or up to a
    pixel beyond the upper edges). *)
Theorem C121_slices : forall xres yres zs bx by_ bz ps, (0 < Z.max xres yres)%Z ->
  (Exists (point_in_slice (Z.max xres yres) zs bx by_ bz) ps -> slice_scatter_c xres yres zs bx by_ bz ps = Err ZeroDivision)
  /\ (~ Exists (point_in_slice (Z.max xres yres) zs bx by_ bz) ps ->
      slice_scatter_c xres yres zs bx by_ bz ps = slice_scatter xres yres zs bx by_ bz ps).
Proof. intros. now apply slice_good. Qed.

Corollary C121_slices_extended : forall xres yres zs bx by_ bz ps, (0 < Z.max xres yres)%Z -> Forall (fun p => p_h p <> 0) ps ->
  slice_scatter_c xres yres zs bx by_ bz ps = slice_scatter xres yres zs bx by_ bz ps.
Proof.
  intros xres yres zs bx by_ bz ps N H. apply C121_slices; [assumption|]. intros E. apply Exists_exists in E. destruct E as (p & I & P & _).
  rewrite Forall_forall in H. now apply (H p).
Qed.

(** The ratio of scatter_limited_z: fine up to the resolution, an error for every other ratio. *)
Theorem C121_limited : forall n ratio bx by_ bz ps, (0 < n)%Z ->
  ((1 <= ratio <= n)%Z -> limited_z_c n ratio bx by_ bz ps = limited_z n ratio bx by_ bz ps)
  /\ ((ratio = 0 \/ n < ratio)%Z -> limited_z_c n ratio bx by_ bz ps = Err ZeroDivision)
  /\ ((ratio < 0)%Z -> limited_z_c n ratio bx by_ bz ps = Err ValueError).
Proof.
  intros n ratio bx by_ bz ps N. split; [|split].
  - intros H. now apply limited_z_good.
  - intros [-> |H]; [reflexivity|]. now apply limited_z_flat.
  - intros H. now apply limited_z_below.
Qed.

(** Images without pixels: everything but the histogram divides by zero, with or without particles. *)
Theorem C121_empty : forall bx by_ bz ps,
  fast_c 0 bx by_ ps = Err ZeroDivision /\ renormalised_c 0 bx by_ ps = Err ZeroDivision /\ reference_c 0 bx by_ ps = Err ZeroDivision
  /\ (forall e d, subsampled_c e d 0 bx by_ ps = Err ZeroDivision) /\ volume_c 0 bx by_ bz ps = Err ZeroDivision
  /\ (forall zs a b, (Z.max a b = 0)%Z -> slice_scatter_c a b zs bx by_ bz ps = Err ZeroDivision)
  /\ (forall ratio, limited_z_c 0 ratio bx by_ bz ps = Err ZeroDivision)
  /\ exists img, histogram_c 0 bx by_ ps = Ok img.
Proof.
  intros bx by_ bz ps. destruct (empty_images bx by_ bz ps) as (A & B & C & D & E & F & G). split; [exact A|]. split; [exact B|]. split; [exact C|]. split; [exact D|]. split; [exact E|]. split; [exact F|].
  split; [exact G|]. rewrite histogram_good by lia. unfold histogram.
  replace (flat_map (histogram_part 0 bx by_) ps) with (@nil write); [eexists; reflexivity|].
  symmetry. assert (Z : forall {A B} (f : A -> list B) l, (forall a, f a = []) -> flat_map f l = []). { intros X Y f l H. induction l as [|a l IH]; [reflexivity|]. cbn. now rewrite H, IH. }
  apply Z. intros p. unfold histogram_part, copies2. apply Z. intros i. apply Z. intros j. unfold histogram_at.
  cbv zeta. set (c := floor (0 * (p_x p + IZR i * bx))). destruct (c <? 0)%Z eqn:L; [reflexivity|]. apply Z.ltb_ge in L.
  replace (0 - 1 <? c)%Z with true by (symmetry; apply Z.ltb_lt; lia). reflexivity.
Qed.

Theorem C121_negative : forall n bx by_ bz ps, (n < 0)%Z ->
  fast_c n bx by_ ps = Err ValueError /\ histogram_c n bx by_ ps = Err ValueError /\ renormalised_c n bx by_ ps = Err ValueError
  /\ reference_c n bx by_ ps = Err ValueError /\ (forall e d, subsampled_c e d n bx by_ ps = Err ValueError)
  /\ volume_c n bx by_ bz ps = Err ValueError
  /\ (forall zs a b, Z.max a b = n -> slice_scatter_c a b zs bx by_ bz ps = Err ValueError)
  /\ (forall ratio, ratio <> 0%Z -> limited_z_c n ratio bx by_ bz ps = Err ValueError).
Proof. intros. now apply negative_images. Qed.

(** * Examples *)

(** A point in the middle of the plane. *)
Definition a_point : part := {| p_x := / 2; p_y := / 2; p_z := / 4; p_m := 1; p_h := 0 |}.

Example a_point_divides : slice_scatter_c 4 2 (/ 4) 0 0 0 [a_point] = Err ZeroDivision.
Proof.
  apply C121_slices; [reflexivity|]. constructor. split; [reflexivity|]. exists (/ 2), (/ 2), (/ 4). unfold copy_of. cbn. repeat split; try (left; split; reflexivity); lra.
Qed.
(** Its copy one box above. *)
Example a_copy_divides : slice_scatter_c 4 2 (5 / 4) 1 1 1 [a_point] = Err ZeroDivision.
Proof.
  apply C121_slices; [reflexivity|]. constructor. split; [reflexivity|]. exists (/ 2), (/ 2), (5 / 4). unfold copy_of. cbn.
  split; [right; split; [lra|]; exists 0%Z; repeat split; [lia|lra|lra]|]. split; [right; split; [lra|]; exists 0%Z; repeat split; [lia|lra|lra]|].
  split; [right; split; [lra|]; exists 1%Z; repeat split; [lia|lra|lra]|]. repeat split; lra.
Qed.
(** Beside the plane the same point writes nothing, and the slice is made. *)
Example beside_the_plane : exists img, slice_scatter_c 4 2 (/ 3) 0 0 0 [a_point] = Ok img /\ forall c, img c = 0.
Proof.
  exists zeros. split; [|reflexivity]. rewrite (proj2 (C121_slices 4 2 (/ 3) 0 0 0 [a_point] eq_refl)).
  - unfold slice_scatter. cbn [flat_map app]. rewrite app_nil_r. unfold slice_part, copies3, shifts. destruct (Req_EM_T 0 0); [|congruence].
    change (zrange 0 1) with [0%Z]. cbn [flat_map app]. rewrite !app_nil_r. unfold slice_at, a_point. cbn [p_x p_y p_z p_m p_h].
    destruct (Rlt_dec _ _) as [L|L]; [reflexivity|]. exfalso. apply L. nra.
  - intros E. apply Exists_exists in E. destruct E as (q & [<-|[]] & _ & xx & yy & zz & _ & _ & Z & -> & _). unfold copy_of in Z. cbn in Z. destruct Z as [[_ Z]|[Z _]]; lra.
Qed.
(** The same point in a projection: a single pixel takes its mass. *)
Example a_point_projected : exists img, fast_c 4 0 0 [a_point] = Ok img /\ img [2%Z; 2%Z] = 16.
Proof.
  rewrite (proj1 (C121_projections 4 0 0 [a_point] eq_refl)). unfold fast. cbn [flat_map app]. rewrite app_nil_r. unfold fast_part, copies2, shifts. destruct (Req_EM_T 0 0); [|congruence].
  change (zrange 0 1) with [0%Z]. cbn [flat_map app]. rewrite !app_nil_r. unfold fast_at, a_point. cbn [p_x p_y p_z p_m p_h].
  replace (gamma2 * 0) with 0 by ring. rewrite one_spanned. replace (/ 2 + 0 * 0) with (/ 2) by ring.
  assert (F : floor (4 * / 2) = 2%Z) by (apply floor_unique; lra). rewrite F. cbn. eexists. split; [reflexivity|]. unfold add_at, zeros, cell_eqb. destruct (list_eq_dec _ _ _); [lra|congruence].
Qed.
(** Sixteen pixels across and a ratio of 17. *)
Example too_flat : limited_z_c 16 17 1 1 1 [] = Err ZeroDivision.
Proof. apply C121_limited; lia. Qed.
Example not_too_flat : exists img, limited_z_c 16 16 1 1 1 [] = Ok img.
Proof. rewrite (proj1 (C121_limited 16 16 1 1 1 [] eq_refl)) by lia. eexists. reflexivity. Qed.

Print Assumptions C121_projections.
Print Assumptions C121_subsampled.
Print Assumptions C121_volumes.
Print Assumptions C121_slices.
Print Assumptions C121_slices_extended.
Print Assumptions C121_limited.
Print Assumptions C121_empty.
Print Assumptions C121_negative.

(** C122: pictures of cosmo arrays in any frames. *)
From Coq Require Import List ZArith Reals Bool Lia Lra.
From Verif Require Import Base VisModel RotModel HsmlModel CosmoModel CosmoSpec CosmoProofs FrontModel FrameModel FrameSpec FrameProofs FrameScaleProofs FrameSameProofs.
Import ListNotations.
Open Scope R_scope.

(** Whatever the frames of the box, the region, the centre of the rotation, the lengths of the particles and the
    field: the picture is the one of the numbers in the frame of the coordinates, its labels are those of the field
    with an exponent lower by two or three, and the coordinates in the dataset keep their frame. *)
Theorem C122_project : forall s b j dn backend n periodic d region rotation mask,
  0 < s -> good_data s b j dn d -> good_region s region -> good_rotation s rotation ->
  matches s b j 2 (d_m d)
    (project backend s b (field_frame (d_m d)) n periodic (triple (numbers b (d_box d))) (region_numbers b region)
       (rotation_numbers b rotation) mask (particles b d))
    (f_project backend n periodic d region rotation mask).
Proof. intros s b j dn backend n periodic d region rotation mask P. now apply project_num. Qed.

Theorem C122_slice : forall s b j dn backend n z_slice periodic d region rotation mask,
  0 < s -> good_data s b j dn d -> good_region s region -> good_rotation s rotation -> good_height s z_slice ->
  matches s b j 3 (d_m d)
    (slice_grid backend s b (field_frame (d_m d)) n (height_number b z_slice) periodic (triple (numbers b (d_box d)))
       (region_numbers b region) (rotation_numbers b rotation) mask (particles b d))
    (f_slice backend n z_slice periodic d region rotation mask).
Proof. intros s b j dn backend n z_slice periodic d region rotation mask P. now apply slice_num. Qed.

Theorem C122_voxels : forall s b j dn backend n periodic d region rotation mask,
  0 < s -> good_data s b j dn d -> good_region s region -> good_rotation s rotation ->
  matches s b j 3 (d_m d)
    (voxel_grid backend s b (field_frame (d_m d)) n periodic (triple (numbers b (d_box d))) (region_numbers b region)
       (rotation_numbers b rotation) mask (particles b d))
    (f_voxels backend n periodic d region rotation mask).
Proof. intros s b j dn backend n periodic d region rotation mask P. now apply voxels_num. Qed.

(** The backends of projections do not look at heights. *)
Lemma flat_map_map {A B C} (f : B -> list C) (g : A -> B) l : flat_map f (map g l) = flat_map (fun a => f (g a)) l.
Proof. induction l as [|a l IH]; [reflexivity|]. cbn [map flat_map]. now rewrite IH. Qed.
Theorem C122_blind : blind fast /\ blind histogram /\ blind renormalised /\ blind reference
  /\ forall evaluations dither, blind (subsampled evaluations dither).
Proof.
  repeat match goal with |- _ /\ _ => split | |- forall e d : Z, blind _ => intros e d end; intros n bx by_ ps zs; unfold fast, histogram, renormalised, reference, subsampled; rewrite flat_map_map; reflexivity.
Qed.

(** Two datasets with the same field and the same lengths, in any frames, have the same pictures. *)
Theorem C122_same_projections : forall s j n1 n2 b1 b2 d1 d2 r1 r2 t1 t2 backend n periodic mask,
  0 < s -> good_data s b1 j n1 d1 -> good_data s b2 j n2 d2 -> d_m d1 = d_m d2 -> same_lengths d1 d2 ->
  good_region s r1 -> good_region s r2 -> same_array r1 r2 ->
  good_rotation s t1 -> good_rotation s t2 -> same_rotation t1 t2 -> blind backend ->
  same_outcome (f_project backend n periodic d1 r1 t1 mask) (f_project backend n periodic d2 r2 t2 mask).
Proof. intros. eapply project_same; eassumption. Qed.

Theorem C122_same_slices : forall s j n1 n2 b1 b2 d1 d2 r1 r2 t1 t2 backend n z1 z2 periodic mask,
  0 < s -> good_data s b1 j n1 d1 -> good_data s b2 j n2 d2 -> d_m d1 = d_m d2 -> same_lengths d1 d2 ->
  good_region s r1 -> good_region s r2 -> same_array r1 r2 ->
  good_rotation s t1 -> good_rotation s t2 -> same_rotation t1 t2 ->
  good_height s z1 -> good_height s z2 -> same_array z1 z2 ->
  same_outcome (f_slice backend n z1 periodic d1 r1 t1 mask) (f_slice backend n z2 periodic d2 r2 t2 mask).
Proof. intros. eapply slice_same; eassumption. Qed.

(** For volumes the region has to be an exact cube... *)
Theorem C122_same_voxels : forall s j n1 n2 b1 b2 d1 d2 r1 r2 t1 t2 backend n periodic mask,
  0 < s -> good_data s b1 j n1 d1 -> good_data s b2 j n2 d2 -> d_m d1 = d_m d2 -> same_lengths d1 d2 ->
  good_region s r1 -> good_region s r2 -> same_array r1 r2 ->
  good_rotation s t1 -> good_rotation s t2 -> same_rotation t1 t2 -> cubic (d_box d1) r1 ->
  same_outcome (f_voxels backend n periodic d1 r1 t1 mask) (f_voxels backend n periodic d2 r2 t2 mask).
Proof. intros. eapply voxels_same; eassumption. Qed.

(** ... because [np.isclose] allows an absolute difference: the same region can be refused with comoving coordinates
    and accepted with physical ones. *)
Definition len (b : bool) (v : list R) : carr := mkarr v (Some (mkcf (Some 1) (Some (/ 2)))) (Some b) true CNone.
Definition nobody (b : bool) : fdata := mkfdata (len b [], len b [], len b []) (len false [1; 1; 1]) (OPlain []) (len false []).
Definition tiny : carr := len false [0; 5 / 1000000000; 0; 14 / 1000000000; 0; 5 / 1000000000].

Lemma good_len : forall b v, good (/ 2) 1 (len b v).
Proof. intros b v. constructor; cbn; [reflexivity|discriminate|reflexivity]. Qed.
Lemma good_nobody : forall b, good_data (/ 2) b 0 0 (nobody b).
Proof. intros b. constructor; cbn; try reflexivity; try exact I; try (split; [apply good_len|reflexivity]); apply good_len. Qed.
Lemma tiny_region : good_region (/ 2) (Some tiny).
Proof. split; [apply good_len|]. right. reflexivity. Qed.

Theorem C122_cubes_refuted : exists d1 d2 region backend n,
  good_data (/ 2) true 0 0 d1 /\ good_data (/ 2) false 0 0 d2 /\ d_m d1 = d_m d2 /\ same_lengths d1 d2
  /\ good_region (/ 2) region
  /\ f_voxels backend n false d1 region None None = Err AttributeError
  /\ exists pic st, f_voxels backend n false d2 region None None = Ok (pic, st).
Proof.
  exists (nobody true), (nobody false), (Some tiny), (fun _ _ _ _ _ => Ok (fun _ => 0)), 4%Z.
  split; [apply good_nobody|]. split; [apply good_nobody|]. split; [reflexivity|]. split; [repeat split|]. split; [apply tiny_region|].
  assert (P : 0 < / 2) by lra.
  pose proof (C122_voxels (/ 2) true 0 0 (fun _ _ _ _ _ => Ok (fun _ => 0)) 4 false (nobody true) (Some tiny) None None P (good_nobody true) tiny_region I) as T.
  pose proof (C122_voxels (/ 2) false 0 0 (fun _ _ _ _ _ => Ok (fun _ => 0)) 4 false (nobody false) (Some tiny) None None P (good_nobody false) tiny_region I) as F.
  unfold voxel_grid in T, F.
  assert (K : region_info true false (triple (numbers true (d_box (nobody true)))) (region_numbers true (Some tiny)) = Err AttributeError).
  { unfold region_info, numbers, region_numbers, numbers, comov. cbn [d_box nobody len tiny acm acf avals map triple region_of r_z r_xmin r_xmax r_ymin r_ymax].
    rewrite Rpower_1 by lra. unfold FrontModel.isclose at 1. destruct (Rle_dec _ _) as [H|H]; [|reflexivity]. exfalso. revert H.
    replace (5 / 1000000000 / / 2 - 0 / / 2 - (14 / 1000000000 / / 2 - 0 / / 2)) with (- (18 / 1000000000)) by field. rewrite Rabs_Ropp, Rabs_pos_eq by lra.
    replace (14 / 1000000000 / / 2 - 0 / / 2) with (28 / 1000000000) by field. rewrite Rabs_pos_eq by lra. lra. }
  assert (K' : exists i, region_info true false (triple (numbers false (d_box (nobody false)))) (region_numbers false (Some tiny)) = Ok i).
  { unfold region_info, numbers, region_numbers, numbers, phys. cbn [d_box nobody len tiny acm acf avals map triple region_of r_z r_xmin r_xmax r_ymin r_ymax].
    replace (FrontModel.isclose (5 / 1000000000 - 0) (14 / 1000000000 - 0)) with true; [rewrite isclose_refl; cbn [andb negb]; eauto|].
    unfold FrontModel.isclose. destruct (Rle_dec _ _) as [H|H]; [reflexivity|]. exfalso. apply H.
    replace (5 / 1000000000 - 0 - (14 / 1000000000 - 0)) with (- (9 / 1000000000)) by field. rewrite Rabs_Ropp, !Rabs_pos_eq by lra. lra. }
  destruct K' as (i & K'). rewrite K in T. rewrite K' in F. cbn [bind matches] in T, F. split; [exact T|]. cbn in F. destruct (i_box i) as [[? ?] ?]. cbn in F. destruct F as (fp & c & F & _). exists fp, c. exact F.
Qed.

(** A region of another snapshot, at another scale factor, is refused. *)
Theorem C122_other_projection : forall s t b j dn d r rotation backend n periodic,
  s <> t -> good_data s b j dn d -> good_region t (Some r) -> good_rotation s rotation ->
  f_project backend n periodic d (Some r) rotation None = Err (if periodic then InvalidScaleFactor else ValueError).
Proof. intros. eapply project_other; eassumption. Qed.
Theorem C122_other_slice : forall s t b j dn d r rotation backend n z periodic,
  s <> t -> good_data s b j dn d -> good_region t (Some r) -> good_rotation s rotation ->
  f_slice backend n z periodic d (Some r) rotation None = Err (if periodic then InvalidScaleFactor else ValueError).
Proof. intros. eapply slice_other; eassumption. Qed.

(** Non-trivial cases: two particles at a scale factor of one half, comoving in one dataset and physical in the other,
    with a comoving density. *)
Definition rho : operand := OArr (mkarr [10; 20] (Some (mkcf (Some (-3)) (Some (/ 2)))) (Some true) true CNone).
Definition pair_c : fdata := mkfdata (len true [1; 3], len true [2; 4], len true [1; 1]) (len false [4; 4; 4]) rho (len true [1; 2]).
Definition pair_p : fdata := mkfdata (len false [1 / 2; 3 / 2], len false [1; 2], len false [1 / 2; 1 / 2]) (len true [8; 8; 8]) rho (len false [1 / 2; 1]).
Example pair_c_good : good_data (/ 2) true (-3) 2 pair_c.
Proof. constructor; cbn; try reflexivity; try exact I; try (split; [apply good_len|reflexivity]); apply good_len. Qed.
Example pair_p_good : good_data (/ 2) false (-3) 2 pair_p.
Proof. constructor; cbn; try reflexivity; try exact I; try (split; [apply good_len|reflexivity]); apply good_len. Qed.
Example pair_same : same_lengths pair_c pair_p.
Proof.
  unfold same_lengths, phys. cbn [pair_c pair_p d_coords d_box d_h col0 col1 col2 len acm acf avals map]. rewrite !Rpower_1 by lra. repeat split; repeat (f_equal; try field); field.
Qed.
Example pair_pictures : forall n z,
  same_outcome (f_slice (fun _ _ _ _ _ _ ps => Ok (fun _ => sumR (map p_m ps))) n (Some (len true [z])) true pair_c (Some (len true [0; 2; 0; 4])) None None)
               (f_slice (fun _ _ _ _ _ _ ps => Ok (fun _ => sumR (map p_m ps))) n (Some (len false [z / 2])) true pair_p (Some (len false [0; 1; 0; 2])) None None).
Proof.
  intros n z. apply (C122_same_slices (/ 2) (-3) 2 2 true false); try exact I; try (split; [apply good_len|cbn; auto]); try reflexivity; [lra|apply pair_c_good|apply pair_p_good|apply pair_same| |].
  - cbn. rewrite Rpower_1 by lra. repeat (f_equal; try field).
  - cbn. rewrite Rpower_1 by lra. repeat (f_equal; try field).
Qed.
(** The picture is labelled with the exponent of the density lowered by three. *)
Example pair_label : forall n, match f_voxels (fun _ _ _ _ ps => Ok (fun _ => sumR (map p_m ps))) n true pair_c None None None with
  | Ok (pic, _) => fp_cf pic = Some (mkcf (Some (-3 - 3)) (Some (/ 2))) /\ fp_cm pic = Some true
  | Err _ => False
  end.
Proof.
  intros n. pose proof (C122_voxels (/ 2) true (-3) 2 (fun _ _ _ _ ps => Ok (fun _ => sumR (map p_m ps))) n true pair_c None None None ltac:(lra) pair_c_good I I) as T.
  unfold voxel_grid in T. destruct (region_info true true _ _) as [i|e] eqn:E.
  - cbn [bind] in T. cbn in T. destruct (i_box i) as [[? ?] ?]. cbn in T. destruct T as (fp & c & -> & _ & _ & L & F & _). auto.
  - exfalso. revert E. unfold region_info. cbn. rewrite isclose_refl. cbn. discriminate.
Qed.
(** A region at another scale factor. *)
Example pair_other : forall n, f_project (fun _ _ _ ps => Ok (fun _ => sumR (map p_m ps))) n true pair_c (Some (mkarr [0; 2; 0; 4] (Some (mkcf (Some 1) (Some 1))) (Some true) true CNone)) None None = Err InvalidScaleFactor.
Proof.
  intros n. apply (C122_other_projection (/ 2) 1 true (-3) 2 pair_c _ None _ n true); [lra|apply pair_c_good| |exact I]. split; [constructor; cbn; [reflexivity|discriminate|reflexivity]|left; reflexivity].
Qed.
(** A backend that does not look at heights. *)
Example total_blind : blind (fun _ _ _ ps => Ok (fun _ => sumR (map p_m ps))).
Proof. intros n bx by_ ps zs. rewrite map_map. reflexivity. Qed.

Print Assumptions C122_project.
Print Assumptions C122_slice.
Print Assumptions C122_voxels.
Print Assumptions C122_blind.
Print Assumptions C122_same_projections.
Print Assumptions C122_same_slices.
Print Assumptions C122_same_voxels.
Print Assumptions C122_cubes_refuted.
Print Assumptions C122_other_projection.
Print Assumptions C122_other_slice.

(** Pictures of empty and reversed regions (C123). *)
From Coq Require Import List ZArith Reals Bool Lra Lia.
From Verif Require Import Base BaseLemmas VisModel RotModel HsmlModel FrontModel DegenModel DegenSpec VisSumProofs DegenProofs.
Import ListNotations.
Open Scope R_scope.

(** * Regions with an extent: FrontModel.v is exact *)

Theorem C123_projection : forall nb b a coords frame n periodic box r rotation mask ps, extends2 nb b -> a <> 0 -> (0 <= n)%Z ->
  (periodic = true -> full_box box) -> ~ empty_region box r ->
  same_picture (nproject nb a coords frame n periodic box r rotation mask ps)
               (project b a coords frame n periodic box r rotation mask ps).
Proof. exact project_regular. Qed.

Theorem C123_slice : forall nb b parallel a coords frame n z_slice periodic box r rotation mask ps,
  extends_slice nb b -> a <> 0 -> (0 <= n)%Z ->
  (periodic = true -> full_box box) -> 0 <= side_x box r -> 0 <= side_y box r -> ~ empty_region box r ->
  same_picture (nslice nb parallel a coords frame n z_slice periodic box r rotation mask ps)
               (slice_grid b a coords frame n z_slice periodic box r rotation mask ps).
Proof. exact slice_regular. Qed.

Theorem C123_volume : forall nb b a coords frame n periodic box r rotation mask ps, extends3 nb b -> a <> 0 ->
  (periodic = true -> full_box box) -> side_x box r <> 0 -> side_y box r <> 0 -> side_z box r <> 0 ->
  same_picture (nvoxels nb a coords frame n periodic box r rotation mask ps)
               (voxel_grid b a coords frame n periodic box r rotation mask ps).
Proof. exact voxels_regular. Qed.

(** * Empty regions *)

Lemma placed_ok periodic box rotation ps : rotation = None \/ periodic = false ->
  exists qs stored, placed periodic box rotation ps = Ok (qs, stored) /\ length qs = length ps.
Proof.
  intros H. unfold placed. destruct rotation as [[m c]|], periodic; try (destruct H; discriminate); do 2 eexists; (split; [reflexivity|]);
    rewrite ?map_length; reflexivity.
Qed.

Lemma pick_ok mask (ps qs : list part) : mask_fits mask ps -> length qs = length ps -> exists l, pick mask qs = Ok l.
Proof.
  intros H E. destruct mask as [bs|]; cbn in *; [|eexists; reflexivity]. unfold zlen. rewrite H, E, Z.eqb_refl. eexists; reflexivity.
Qed.

(** No picture is made of an empty region, whatever the backend does... *)
Theorem C123_empty_projection : forall nb a coords frame n periodic box r rotation mask ps, empty_region box r ->
  fails (nproject nb a coords frame n periodic box r rotation mask ps).
Proof.
  intros nb a coords frame n periodic box r rotation mask ps E. unfold nproject. destruct (region_info_free periodic box r) as [i Hi].
  rewrite Hi. cbn [bind]. apply region_info_sides in Hi. destruct Hi as [(Sx & Sy & Sz & Sm) _]. apply empty_max in E. rewrite E in Sm.
  destruct (placed periodic box rotation ps) as [[qs stored]|e]; cbn [bind]; [|eexists; reflexivity].
  destruct (depth_mask periodic box i mask qs) as [mask'|e]; cbn [bind]; [|eexists; reflexivity].
  destruct (pick mask' qs) as [used|e]; cbn [bind]; [|eexists; reflexivity].
  match goal with |- context [nb n ?x ?y ?z] => destruct (nb n x y z); cbn [bind]; [|eexists; reflexivity] end.
  rewrite Sm. destruct (npixels_none n (i_xrange i)) as [e ->]. eexists; reflexivity.
Qed.

(** ... and these are the errors if nothing else is wrong. *)
Theorem C123_empty_projection_errors : forall nb a coords frame n periodic box r rotation mask ps, empty_region box r ->
  (0 < n)%Z -> (forall m bx by_ qs, exists img, nb m bx by_ qs = Ok img) ->
  (rotation = None \/ periodic = false) -> mask_fits mask ps -> side_z box r <= snd box ->
  nproject nb a coords frame n periodic box r rotation mask ps = Err (if Rlt_dec (side_x box r) 0 then OverflowErr else ValueError).
Proof.
  intros nb a coords frame n periodic box r rotation mask ps E N Hnb Hrot Hmask Hz. unfold nproject.
  destruct (region_info_free periodic box r) as [i Hi].
  rewrite Hi. cbn [bind]. apply region_info_sides in Hi. destruct Hi as [(Sx & Sy & Sz & Sm) _]. pose proof E as (Ex & _ & _).
  apply empty_max in E. rewrite E in Sm.
  destruct (placed_ok periodic box rotation ps Hrot) as (qs & stored & -> & Hl). cbn [bind].
  assert (exists mask', depth_mask periodic box i mask qs = Ok mask' /\ mask_fits mask' ps) as (mask' & -> & Hm').
  { unfold depth_mask. destruct box as [[lx ly] lz]. cbn [snd] in Hz. destruct (i_has_z i); [|eauto].
    unfold leb at 1. rewrite Sz. destruct (Rle_dec _ lz); [|contradiction]. rewrite Bool.andb_false_r.
    destruct mask as [bs|].
    - unfold zlen. rewrite map_length, Hmask, Hl, Z.eqb_refl. eexists. split; [reflexivity|]. cbn [mask_fits].
      rewrite map_length, combine_length, map_length. cbn in Hmask. lia.
    - eexists. split; [reflexivity|]. cbn [mask_fits]. now rewrite map_length. }
  cbn [bind]. destruct (pick_ok _ _ _ Hm' Hl) as [used ->]. cbn [bind].
  match goal with |- context [nb n ?x ?y ?z] => destruct (Hnb n x y z) as [img ->] end. cbn [bind].
  rewrite Sm, Sx. destruct (Rlt_dec (side_x box r) 0) as [L|L].
  - now rewrite npixels_below.
  - replace (side_x box r) with 0 by lra. now rewrite npixels_zero.
Qed.

(** Slices fail before the mask and the backend are looked at. *)
Theorem C123_empty_slice : forall nb parallel a coords frame n z_slice periodic box r rotation mask ps, empty_region box r -> (0 < n)%Z ->
  nslice nb parallel a coords frame n z_slice periodic box r rotation mask ps
  = Err match rotation, periodic with
        | Some _, true => ValueError
        | _, _ => if Rlt_dec (side_x box r) 0 then OverflowErr else ValueError
        end.
Proof.
  intros nb parallel a coords frame n z_slice periodic box r rotation mask ps E N. unfold nslice.
  destruct (region_info_free periodic box r) as [i Hi].
  rewrite Hi. cbn [bind]. apply region_info_sides in Hi. destruct Hi as [(Sx & Sy & Sz & Sm) _]. pose proof E as (Ex & _ & _).
  apply empty_max in E. rewrite E in Sm. rewrite Sm, Sx.
  assert (H : npixels_slice n (side_x box r) 0 = Err (if Rlt_dec (side_x box r) 0 then OverflowErr else ValueError)).
  { destruct (Rlt_dec (side_x box r) 0) as [L|L]; [now apply npixels_slice_below|]. replace (side_x box r) with 0 by lra. apply npixels_slice_zero. }
  unfold placed. destruct rotation as [[m c]|], periodic; cbn [bind]; rewrite ?H; reflexivity.
Qed.

(** A volume is made of an empty region, without any error, and none of its voxels is a number. *)
Theorem C123_empty_volume : forall nb a coords f n periodic box r rotation mask ps pic stored,
  side_x box r = 0 \/ side_y box r = 0 \/ side_z box r = 0 ->
  (forall m bx by_ bz qs img, nb m bx by_ bz qs = Ok img -> forall c, finite (img c)) ->
  nvoxels nb a coords (Some f) n periodic box r rotation mask ps = Ok (pic, stored) ->
  forall c, ~ finite (np_image pic c).
Proof.
  intros nb a coords f n periodic box r rotation mask ps pic stored Z0 Hnb. unfold nvoxels.
  destruct (region_info true periodic box r) as [i|e] eqn:Hi; cbn [bind]; [|discriminate].
  apply region_info_sides in Hi. destruct Hi as [(Sx & Sy & Sz & Sm) _].
  destruct (placed periodic box rotation ps) as [[qs stored']|e]; cbn [bind]; [|discriminate].
  destruct (pick mask qs) as [used|e]; cbn [bind]; [|discriminate].
  match goal with |- context [nb n ?x ?y ?u ?z] => destruct (nb n x y u z) as [img|] eqn:Eb; cbn [bind]; [|discriminate] end.
  intros H c. injection H as <- <-. cbn [np_image]. unfold nnormalise.
  replace (convert a 3 coords f (i_xrange i * i_yrange i * i_zrange i)) with 0.
  - destruct (Hnb _ _ _ _ _ _ Eb c) as [v ->]. intros F. now apply ndiv_zero in F.
  - assert (P : i_xrange i * i_yrange i * i_zrange i = 0) by (rewrite Sx, Sy, Sz; destruct Z0 as [-> |[-> | -> ]]; ring).
    rewrite P. unfold convert. destruct coords, f; unfold Rdiv; ring.
Qed.

Lemma isclose_refl x : isclose x x = true.
Proof.
  unfold isclose. destruct (Rle_dec _ _) as [|H]; [reflexivity|]. exfalso. apply H. replace (x - x) with 0 by ring. rewrite Rabs_R0.
  pose proof (Rabs_pos x). lra.
Qed.

Theorem C123_empty_volume_refuted : forall nb a coords f n periodic box r rotation mask ps,
  side_x box (Some r) = 0 -> side_y box (Some r) = 0 -> side_z box (Some r) = 0 ->
  (forall m bx by_ bz qs, exists img, nb m bx by_ bz qs = Ok img /\ forall c, finite (img c)) ->
  (rotation = None \/ periodic = false) -> mask_fits mask ps ->
  exists pic stored, nvoxels nb a coords (Some f) n periodic box (Some r) rotation mask ps = Ok (pic, stored)
    /\ np_shape pic = [n; n; n] /\ forall c, ~ finite (np_image pic c).
Proof.
  intros nb a coords f n periodic box r rotation mask ps X Y Z0 Hnb Hrot Hmask.
  assert (exists pic stored, nvoxels nb a coords (Some f) n periodic box (Some r) rotation mask ps = Ok (pic, stored)
    /\ np_shape pic = [n; n; n]) as (pic & stored & H & S0).
  { unfold nvoxels. destruct (region_info true periodic box (Some r)) as [i|e] eqn:Hi.
    - cbn [bind]. destruct (placed_ok periodic box rotation ps Hrot) as (qs & stored & -> & Hl). cbn [bind].
      destruct (pick_ok _ _ _ Hmask Hl) as [used ->]. cbn [bind].
      match goal with |- context [nb n ?x ?y ?u ?z] => destruct (Hnb n x y u z) as (img & -> & _) end. cbn [bind].
      do 2 eexists. split; reflexivity.
    - exfalso. destruct box as [[lx ly] lz]. destruct r as [x0 x1 y0 y1 z]. unfold region_info in Hi. unfold side_x, side_y, side_z in *.
      cbn [r_xmin r_xmax r_ymin r_ymax r_z snd] in *. destruct z as [[z0 z1]|].
      + rewrite X, Y, Z0, isclose_refl in Hi. discriminate.
      + rewrite X, Y in Hi. rewrite Rminus_0_r, Z0, isclose_refl in Hi. discriminate. }
  exists pic, stored. split; [exact H|]. split; [exact S0|]. refine (C123_empty_volume _ _ _ _ _ _ _ _ _ _ _ _ _ (or_introl X) _ H).
  intros m bx by_ bz qs img E. destruct (Hnb m bx by_ bz qs) as (img' & E' & Hf). rewrite E in E'. injection E' as ->. exact Hf.
Qed.

(** * Regions without width *)

(** If only one of the sides is empty there is a picture, but it has no pixels. *)
Theorem C123_line : forall nb a coords frame n periodic box r rotation mask ps pic stored, (0 <= n)%Z ->
  side_x box r = 0 \/ side_y box r = 0 ->
  nproject nb a coords frame n periodic box r rotation mask ps = Ok (pic, stored) -> forall c, ~ pixel_of (np_shape pic) c.
Proof.
  intros nb a coords frame n periodic box r rotation mask ps pic stored N H0. unfold nproject.
  destruct (region_info_free periodic box r) as [i Hi]. rewrite Hi. cbn [bind].
  apply region_info_sides in Hi. destruct Hi as [(Sx & Sy & Sz & Sm) _].
  destruct (placed periodic box rotation ps) as [[qs stored']|e]; cbn [bind]; [|discriminate].
  destruct (depth_mask periodic box i mask qs) as [mask'|e]; cbn [bind]; [|discriminate].
  destruct (pick mask' qs) as [used|e]; cbn [bind]; [|discriminate].
  match goal with |- context [nb n ?x ?y ?z] => destruct (nb n x y z); cbn [bind]; [|discriminate] end.
  destruct (Req_EM_T (i_max i) 0) as [M|M].
  { rewrite M. destruct (npixels_none n (i_xrange i)) as [e ->]. discriminate. }
  rewrite !npixels_fin by exact M. cbn [bind]. intros H c Hc. injection H as <- <-. cbn [np_shape] in Hc.
  assert (P0 : forall m, stop_index n (pixels n 0 m) = 0%Z).
  { intros m. unfold pixels. replace (IZR n * (0 / m)) with 0 by (unfold Rdiv; ring). rewrite ceil_zero. unfold stop_index. cbn. lia. }
  inversion Hc as [|? ? ? ? H1 H2]; subst. inversion H2 as [|? ? ? ? H3 H4]; subst.
  rewrite Sx, Sy in *. destruct H0 as [E|E]; rewrite E in *; rewrite P0 in *; lia.
Qed.

(** * Reversed regions *)

(** If the limits along x are exchanged, the projection loses its last columns and its values have the wrong sign. *)
Theorem C123_reversed_projection : forall nb b a coords f n periodic box r rotation mask ps pic stored, extends2 nb b -> 0 < a -> (0 < n)%Z ->
  (periodic = true -> full_box box) -> side_x box r <= - side_y box r / IZR n -> 0 < side_y box r ->
  (forall m bx by_ qs img, b m bx by_ qs = Ok img -> forall c, 0 <= img c) ->
  nproject nb a coords (Some f) n periodic box r rotation mask ps = Ok (pic, stored) ->
  np_shape pic = [Z.max 0 (n + ceil (IZR n * (side_x box r / side_y box r))); n]%Z
  /\ forall c, pixel_of (np_shape pic) c -> exists v, np_image pic c = Fin v /\ v <= 0.
Proof.
  intros nb b a coords f n periodic box r rotation mask ps pic stored Hb Ha N Hbox X1 Y Hpos H.
  pose proof (IZR_lt _ _ N) as NR. assert (X0 : IZR n * side_x box r <= - side_y box r).
  { apply Rmult_le_compat_l with (r := IZR n) in X1; [|lra]. replace (IZR n * (- side_y box r / IZR n)) with (- side_y box r) in X1 by (field; lra). exact X1. }
  assert (X : side_x box r < 0) by nra.
  assert (Hne : ~ empty_region box r) by (unfold empty_region; lra).
  pose proof (C123_projection nb b a coords (Some f) n periodic box r rotation mask ps Hb ltac:(lra) ltac:(lia) Hbox Hne) as S0.
  rewrite H in S0. unfold project in S0. destruct (region_info_free periodic box r) as [i Hi]. rewrite Hi in S0. cbn [bind] in S0.
  apply region_info_sides in Hi. destruct Hi as [(Sx & Sy & Sz & Sm) _].
  assert (M : i_max i = side_y box r) by (rewrite Sm; apply Rmax_right; lra).
  destruct (placed periodic box rotation ps) as [[qs stored']|e]; cbn [bind] in S0; [|destruct S0].
  destruct (depth_mask periodic box i mask qs) as [mask'|e]; cbn [bind] in S0; [|destruct S0].
  destruct (pick mask' qs) as [used|e]; cbn [bind] in S0; [|destruct S0].
  destruct (i_box i) as [[bx by_] bz]. destruct (b n bx by_ (map (normed2 periodic i) used)) as [img|e] eqn:Eb; cbn [bind] in S0; [|destruct S0].
  destruct S0 as (_ & Sh & Px). cbn [pic_shape pic_image] in Sh, Px. split.
  - rewrite Sh, M, Sx, Sy. unfold pixels. set (q := IZR n * (side_x box r / side_y box r)).
    replace (IZR n * (side_y box r / side_y box r)) with (IZR n) by (field; lra).
    replace (ceil (IZR n)) with n by (symmetry; apply ceil_unique; lra).
    assert (Q : q <= -1).
    { unfold q. replace (IZR n * (side_x box r / side_y box r)) with (IZR n * side_x box r * / side_y box r) by (field; lra).
      pose proof (Rinv_0_lt_compat _ Y) as I. apply Rmult_le_compat_r with (r := / side_y box r) in X0; [|lra].
      replace (- side_y box r * / side_y box r) with (-1) in X0 by (field; lra). exact X0. }
    assert (C : (ceil q < 0)%Z). { pose proof (ceil_spec q) as [_ C]. apply lt_IZR. lra. }
    unfold stop_index. destruct (ceil q <? 0)%Z eqn:E1; [|apply Z.ltb_ge in E1; lia].
    destruct (n <? 0)%Z eqn:E2; [apply Z.ltb_lt in E2; lia|]. rewrite Z.min_id. reflexivity.
  - intros c Hc. eexists. split; [exact (Px c Hc)|]. unfold normalise. rewrite Sx, Sy.
    assert (Nn : convert a 2 coords f (side_x box r * side_y box r) < 0).
    { assert (side_x box r * side_y box r < 0) by nra. pose proof (pow_lt a 2 Ha). pose proof (Rinv_0_lt_compat _ H1).
      unfold convert. destruct coords, f; unfold Rdiv; nra. }
    pose proof (Hpos _ _ _ _ _ Eb c) as Hv. unfold Rdiv. pose proof (Rinv_lt_0_compat _ Nn). nra.
Qed.

(** A slice of such a region is cut in the same way if it is made by one thread, and refused if it is made by several. *)
Theorem C123_reversed_slice : forall nb b a coords frame n z_slice periodic box r rotation mask ps, extends_slice nb b ->
  (0 < n)%Z -> side_x box r <= - side_y box r / IZR n -> 0 < side_y box r -> (rotation = None \/ periodic = false) ->
  mask_fits mask ps ->
  nslice nb true a coords frame n z_slice periodic box r rotation mask ps = Err ValueError
  /\ (forall pic stored, nslice nb false a coords frame n z_slice periodic box r rotation mask ps = Ok (pic, stored) ->
      np_shape pic = [Z.max 0 (n + ceil (IZR n * side_x box r / side_y box r)); n]%Z).
Proof.
  intros nb b a coords frame n z_slice periodic box r rotation mask ps Hb N X Y Hrot Hmask. unfold nslice.
  destruct (region_info_free periodic box r) as [i Hi]. rewrite Hi. cbn [bind].
  apply region_info_sides in Hi. destruct Hi as [(Sx & Sy & Sz & Sm) _].
  pose proof (IZR_lt _ _ N) as NR. assert (X0 : IZR n * side_x box r <= - side_y box r).
  { apply Rmult_le_compat_l with (r := IZR n) in X; [|lra]. replace (IZR n * (- side_y box r / IZR n)) with (- side_y box r) in X by (field; lra). exact X. }
  assert (M : i_max i = side_y box r) by (rewrite Sm; apply Rmax_right; nra).
  destruct (placed_ok periodic box rotation ps Hrot) as (qs & stored & -> & Hl). cbn [bind].
  rewrite !npixels_slice_fin by (rewrite M; lra). cbn [bind]. destruct (pick_ok _ _ _ Hmask Hl) as [used ->]. cbn [bind].
  rewrite M, Sx, Sy. unfold pixels_slice. set (q := IZR n * side_x box r / side_y box r).
  replace (IZR n * side_y box r / side_y box r) with (IZR n) by (field; lra).
  replace (ceil (IZR n)) with n by (symmetry; apply ceil_unique; lra).
  assert (Q : q <= -1).
  { unfold q, Rdiv. pose proof (Rinv_0_lt_compat _ Y) as I. apply Rmult_le_compat_r with (r := / side_y box r) in X0; [|lra].
    replace (- side_y box r * / side_y box r) with (-1) in X0 by (field; lra). exact X0. }
  assert (C : (ceil q < 0)%Z). { pose proof (ceil_spec q) as [_ C]. apply lt_IZR. lra. }
  unfold slice_shape. destruct (ceil q <? 0)%Z eqn:E1; [|apply Z.ltb_ge in E1; lia]. split; [reflexivity|].
  intros pic stored'. cbn [bind orb]. match goal with |- context [nb ?u ?v ?w ?x ?y ?z ?t] => destruct (nb u v w x y z t); cbn [bind]; [|discriminate] end.
  intros H. injection H as <- <-. cbn [np_shape]. rewrite (Z.max_r (ceil q) n) by lia. unfold stop_index. rewrite E1.
  destruct (n <? 0)%Z eqn:E2; [apply Z.ltb_lt in E2; lia|]. rewrite Z.min_id. reflexivity.
Qed.

(** * Examples *)

(** A backend for all numbers: it counts the particles. *)
Definition count2 (n : Z) (bx by_ : num) (ps : list npart) : res nimage := Ok (fun _ => Fin (INR (length ps))).
Definition count3 (n : Z) (bx by_ bz : num) (ps : list npart) : res nimage := Ok (fun _ => Fin (INR (length ps))).
Definition count_slice (x y : Z) (zs bx by_ bz : num) (ps : list npart) : res nimage := Ok (fun _ => Fin (INR (length ps))).

Example ex_extends : extends2 count2 (fun _ _ _ ps => Ok (fun _ => INR (length ps)))
  /\ extends3 count3 (fun _ _ _ _ ps => Ok (fun _ => INR (length ps)))
  /\ extends_slice count_slice (fun _ _ _ _ _ _ ps => Ok (fun _ => INR (length ps))).
Proof. repeat match goal with |- _ /\ _ => split end; red; intros; unfold count2, count3, count_slice; rewrite map_length; reflexivity. Qed.

Definition ex_box : vec := (8, 8, 8).
Definition ex_point : region := mkregion 2 2 3 3 None.
Definition ex_back : region := mkregion 4 2 0 8 None.
Definition ex_particles : list part := [mkpart 1 2 3 1 1; mkpart 2 3 4 1 1].

Example ex_empty : empty_region ex_box (Some ex_point) /\ ~ empty_region ex_box (Some ex_back) /\ ~ empty_region ex_box None /\ full_box ex_box.
Proof. unfold empty_region, full_box, ex_box, ex_point, ex_back, side_x, side_y. cbn. lra. Qed.

Example ex_projection_of_a_point :
  nproject count2 1 true (Some true) 4 true ex_box (Some ex_point) None None ex_particles = Err ValueError.
Proof.
  rewrite (C123_empty_projection_errors count2 1 true (Some true) 4 true ex_box (Some ex_point) None None ex_particles).
  - destruct (Rlt_dec _ _) as [H|]; [|reflexivity]. unfold side_x, ex_point in H. cbn in H. lra.
  - apply ex_empty.
  - lia.
  - intros. eexists. reflexivity.
  - now left.
  - exact I.
  - unfold side_z, ex_point, ex_box. cbn. lra.
Qed.

Example ex_volume_of_a_point : exists pic stored,
  nvoxels count3 1 true (Some true) 4 true ex_box (Some (mkregion 2 2 3 3 (Some (1, 1)))) None None ex_particles = Ok (pic, stored)
  /\ np_shape pic = [4; 4; 4]%Z /\ forall c, ~ finite (np_image pic c).
Proof.
  apply C123_empty_volume_refuted; try (unfold side_x, side_y, side_z; cbn; lra).
  - intros. eexists. split; [reflexivity|]. intros c. eexists. reflexivity.
  - now left.
Qed.

Example ex_line : exists pic stored,
  nproject count2 1 true (Some true) 4 true ex_box (Some (mkregion 2 2 3 7 None)) None None ex_particles = Ok (pic, stored)
  /\ np_shape pic = [0; 4]%Z.
Proof.
  unfold nproject, region_info, ex_box. cbn [r_xmin r_xmax r_ymin r_ymax r_z bind andb placed depth_mask i_has_z pick count2].
  cbn [i_max i_xrange i_yrange]. replace (2 - 2) with 0 by ring. replace (7 - 3) with 4 by ring. rewrite Rmax_right by lra.
  rewrite !npixels_fin by lra. cbn [bind]. do 2 eexists. split; [reflexivity|]. cbn [np_shape]. unfold pixels.
  replace (4 * (0 / 4)) with 0 by field. rewrite ceil_zero. replace (4 * (4 / 4)) with (IZR 4) by field.
  replace (ceil (IZR 4)) with 4%Z by (symmetry; apply ceil_unique; lra). reflexivity.
Qed.

Example ex_reversed :
  nslice count_slice true 1 true (Some true) 4 None true ex_box (Some ex_back) None None ex_particles = Err ValueError
  /\ exists pic stored, nslice count_slice false 1 true (Some true) 4 None true ex_box (Some ex_back) None None ex_particles = Ok (pic, stored)
     /\ np_shape pic = [3; 4]%Z.
Proof.
  destruct ex_extends as (_ & _ & E).
  assert (X : side_x ex_box (Some ex_back) = -2) by (unfold side_x, ex_back; cbn; lra).
  assert (Y : side_y ex_box (Some ex_back) = 8) by (unfold side_y, ex_back; cbn; lra).
  destruct (C123_reversed_slice count_slice _ 1 true (Some true) 4 None true ex_box (Some ex_back) None None ex_particles E ltac:(lia)
     ltac:(rewrite X, Y; lra) ltac:(rewrite Y; lra) (or_introl eq_refl) I) as [A B].
  split; [exact A|].
  assert (exists p, nslice count_slice false 1 true (Some true) 4 None true ex_box (Some ex_back) None None ex_particles = Ok p) as [[pic stored] H].
  { unfold nslice, region_info, ex_box, ex_back. cbn [r_xmin r_xmax r_ymin r_ymax r_z bind andb placed pick count_slice i_max i_xrange i_yrange].
    rewrite Rmax_right by lra. rewrite !npixels_slice_fin by lra. cbn [bind slice_shape]. eexists. reflexivity. }
  exists pic, stored. split; [exact H|]. rewrite (B _ _ H), X, Y. replace (4 * -2 / 8) with (IZR (-1)) by lra.
  replace (ceil (IZR (-1))) with (-1)%Z by (symmetry; apply ceil_unique; lra). reflexivity.
Qed.

Example ex_reversed_projection : exists pic stored,
  nproject count2 1 true (Some true) 4 true ex_box (Some ex_back) None None ex_particles = Ok (pic, stored)
  /\ np_shape pic = [3; 4]%Z /\ np_image pic [0; 0]%Z = Fin (- / 8).
Proof.
  unfold nproject, region_info, ex_box, ex_back. cbn [r_xmin r_xmax r_ymin r_ymax r_z bind andb placed depth_mask i_has_z pick count2].
  cbn [i_max i_xrange i_yrange]. replace (2 - 4) with (-2) by ring. replace (8 - 0) with 8 by ring. rewrite Rmax_right by lra.
  rewrite !npixels_fin by lra. cbn [bind]. do 2 eexists. split; [reflexivity|]. cbn [np_shape np_image]. unfold pixels.
  replace (4 * (-2 / 8)) with (IZR (-1)) by lra. replace (4 * (8 / 8)) with (IZR 4) by lra.
  replace (ceil (IZR 4)) with 4%Z by (symmetry; apply ceil_unique; lra).
  replace (ceil (IZR (-1))) with (-1)%Z by (symmetry; apply ceil_unique; lra). split; [reflexivity|].
  unfold nnormalise, convert. rewrite ndiv_fin by lra. rewrite !map_length. cbn [length ex_particles INR]. f_equal. lra.
Qed.

Print Assumptions C123_projection.
Print Assumptions C123_slice.
Print Assumptions C123_volume.
Print Assumptions C123_empty_projection.
Print Assumptions C123_empty_projection_errors.
Print Assumptions C123_empty_slice.
Print Assumptions C123_empty_volume.
Print Assumptions C123_empty_volume_refuted.
Print Assumptions C123_line.
Print Assumptions C123_reversed_projection.
Print Assumptions C123_reversed_slice.

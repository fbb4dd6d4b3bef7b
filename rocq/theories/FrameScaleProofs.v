(** Pictures of numbers do not change when all lengths are multiplied by one number. *)
From Coq Require Import List ZArith Reals Bool Lia Lra.
From Verif Require Import Base VisModel RotModel HsmlModel CosmoModel CosmoSpec CosmoProofs FrontModel FrameModel FrameSpec FrameProofs.
Import ListNotations.
Open Scope R_scope.

Section Scale.
Variable c : R.
Hypothesis c_pos : 0 < c.

Definition sc_vec (v : vec) : vec := let '(x, y, z) := v in (c * x, c * y, c * z).
Definition sc_region (r : option region) : option region :=
  match r with
  | None => None
  | Some r => Some (mkregion (c * r_xmin r) (c * r_xmax r) (c * r_ymin r) (c * r_ymax r) (match r_z r with None => None | Some (z0, z1) => Some (c * z0, c * z1) end))
  end.
Definition sc_rotation (r : option (mat * vec)) : option (mat * vec) := match r with None => None | Some (m, v) => Some (m, sc_vec v) end.
Definition sc_part (p : part) : part := mkpart (c * p_x p) (c * p_y p) (c * p_z p) (p_m p) (c * p_h p).
Definition sc_info (i : info) : info :=
  mkinfo (c * i_xmin i) (c * i_ymin i) (c * i_zmin i) (c * i_zmax i) (c * i_xrange i) (c * i_yrange i) (c * i_zrange i) (c * i_max i) (i_has_z i) (i_box i).

Lemma ratio x y : c * x / (c * y) = x / y.
Proof. unfold Rdiv. rewrite Rinv_mult. replace (c * x * (/ c * / y)) with (c * / c * (x * / y)) by ring. rewrite Rinv_r by lra. ring. Qed.

Definition cubic_numbers (box : vec) (r : option region) : Prop :=
  match r with
  | None => let '(x, y, z) := box in x = y /\ x = z
  | Some r => r_xmax r - r_xmin r = r_ymax r - r_ymin r /\ match r_z r with Some (z0, z1) => r_xmax r - r_xmin r = z1 - z0 | None => let '(_, _, z) := box in r_xmax r - r_xmin r = z end
  end.
Lemma isclose_refl x : FrontModel.isclose x x = true.
Proof. unfold FrontModel.isclose. destruct (Rle_dec _ _) as [|n]; [reflexivity|]. exfalso. apply n. replace (x - x) with 0 by ring. rewrite Rabs_R0. pose proof (Rabs_pos x). lra. Qed.

Lemma region_info_scale cubic periodic box r : (cubic = true -> cubic_numbers box r) ->
  exists i, region_info cubic periodic box r = Ok i /\ region_info cubic periodic (sc_vec box) (sc_region r) = Ok (sc_info i).
Proof.
  intros Q. destruct box as [[lx ly] lz]. unfold region_info. cbn [sc_vec sc_region].
  assert (T : forall x0 x1 y0 y1 z0 z1 has, (cubic = true -> x1 - x0 = y1 - y0 /\ x1 - x0 = z1 - z0) ->
    let tail lx ly lz x0 x1 y0 y1 z0 z1 :=
      (let mr := Rmax (x1 - x0) (y1 - y0) in
       if cubic && negb (FrontModel.isclose (x1 - x0) (y1 - y0) && FrontModel.isclose (x1 - x0) (z1 - z0)) then Err AttributeError
       else Ok (mkinfo x0 y0 z0 z1 (x1 - x0) (y1 - y0) (z1 - z0) mr has (if periodic then (lx / mr, ly / mr, lz / mr) else (0, 0, 0)))) in
    exists i, tail lx ly lz x0 x1 y0 y1 z0 z1 = Ok i /\ tail (c * lx) (c * ly) (c * lz) (c * x0) (c * x1) (c * y0) (c * y1) (c * z0) (c * z1) = Ok (sc_info i)).
  { intros x0 x1 y0 y1 z0 z1 has P tail. unfold tail. cbv zeta. rewrite <- !Rmult_minus_distr_l. rewrite RmaxRmult by lra.
    assert (E : forall k, cubic && negb (FrontModel.isclose (k * (x1 - x0)) (k * (y1 - y0)) && FrontModel.isclose (k * (x1 - x0)) (k * (z1 - z0))) = false).
    { intros k. destruct cubic; [|reflexivity]. destruct (P eq_refl) as [<- <-]. now rewrite isclose_refl. }
    pose proof (E 1) as E1. rewrite !Rmult_1_l in E1. rewrite (E c), E1. eexists. split; [reflexivity|]. unfold sc_info. cbn. rewrite !ratio. reflexivity. }
  destruct r as [[x0 x1 y0 y1 [[z0 z1]|]]|]; cbn [r_z r_xmin r_xmax r_ymin r_ymax cubic_numbers] in *.
  - exact (T x0 x1 y0 y1 z0 z1 true Q).
  - specialize (T x0 x1 y0 y1 0 lz false). rewrite Rmult_0_r in T. apply T. intros H. destruct (Q H) as [A B]. split; [exact A|lra].
  - specialize (T 0 lx 0 ly 0 lz false). rewrite Rmult_0_r in T. apply T. intros H. destruct (Q H) as [A B]. split; lra.
Qed.

Lemma placed_scale periodic box rotation ps :
  placed periodic (sc_vec box) (sc_rotation rotation) (map sc_part ps) = match placed periodic box rotation ps with Ok (a, d) => Ok (map sc_part a, map sc_part d) | Err e => Err e end.
Proof.
  unfold placed. destruct rotation as [[m ct]|]; cbn [sc_rotation]; destruct periodic; try reflexivity.
  - f_equal. f_equal. rewrite !map_map. apply map_ext. intros p. destruct m as [[[[a0 a1] a2] [[a3 a4] a5]] [[a6 a7] a8]]. destruct ct as [[c0 c1] c2].
    unfold sc_part, rotate, position, moved. cbn. f_equal; ring.
  - f_equal. rewrite !map_map. destruct box as [[lx ly] lz]. f_equal; apply map_ext; intros p; unfold sc_part, moved, position, rem_point; cbn; now rewrite !rmod_scale.
Qed.

Lemma leb_scale x y : leb (c * x) (c * y) = leb x y.
Proof. unfold leb. destruct (Rle_dec x y) as [H|H], (Rle_dec (c * x) (c * y)) as [H'|H']; try reflexivity; exfalso; [apply H', Rmult_le_compat_l; lra|apply H, (Rmult_le_reg_l c); lra]. Qed.
Lemma depth_scale periodic box i mask ps : depth_mask periodic (sc_vec box) (sc_info i) mask (map sc_part ps) = depth_mask periodic box i mask ps.
Proof.
  destruct box as [[lx ly] lz]. unfold depth_mask. cbn [sc_vec sc_info i_has_z i_zrange i_zmin i_zmax]. rewrite leb_scale. destruct (i_has_z i); [|reflexivity]. destruct (periodic && _); [reflexivity|].
  rewrite map_map. replace (map (fun x => in_depth periodic (c * lz) (c * i_zmin i) (c * i_zmax i) (p_z (sc_part x))) ps) with (map (fun p => in_depth periodic lz (i_zmin i) (i_zmax i) (p_z p)) ps); [reflexivity|].
  apply map_ext. intros p. unfold in_depth. cbn [sc_part p_z]. rewrite !rmod_scale by exact c_pos. rewrite !leb_scale. reflexivity.
Qed.

Definition same_out (o1 o2 : res (picture * list part)) : Prop :=
  match o1, o2 with
  | Ok (p1, ps1), Ok (p2, ps2) => pic_shape p1 = pic_shape p2 /\ (forall q, pic_image p1 q = pic_image p2 q) /\ ps2 = map sc_part ps1
  | Err e1, Err e2 => e1 = e2
  | _, _ => False
  end.

Lemma normalise_scale d frame v img q : normalise c d true frame v img q = normalise c d false frame (c ^ d * v) img q.
Proof. unfold normalise. f_equal. destruct frame as [[|]|]; cbn [convert]; [|ring|reflexivity]. field. apply pow_nonzero. lra. Qed.

Lemma project_scale backend frame n periodic box r rotation mask ps : blind backend ->
  same_out (project backend c true frame n periodic box r rotation mask ps) (project backend c false frame n periodic (sc_vec box) (sc_region r) (sc_rotation rotation) mask (map sc_part ps)).
Proof.
  intros B. unfold project. destruct (region_info_scale false periodic box r) as (i & E1 & E2); [discriminate|]. rewrite E1, E2. cbn [bind]. rewrite placed_scale. destruct (placed _ _ _ _) as [[qs st]|e]; cbn [bind]; [|reflexivity].
  rewrite depth_scale. destruct (depth_mask _ _ _ _ _) as [mk|e]; cbn [bind]; [|reflexivity]. rewrite pick_map. destruct (pick mk qs) as [us|e]; cbn [bind]; [|reflexivity].
  cbn [sc_info i_box]. destruct (i_box i) as [[bx by_] bz] eqn:BX. fold (sc_info i). rewrite map_map.
  replace (backend n bx by_ (map (fun x => normed2 periodic (sc_info i) (sc_part x)) us)) with (backend n bx by_ (map (normed2 periodic i) us)).
  - destruct (backend n bx by_ _) as [img|e]; cbn [bind same_out]; [|reflexivity]. cbn [pic_shape pic_image sc_info i_xrange i_yrange i_max]. split; [unfold pixels; rewrite !ratio; reflexivity|]. split; [|reflexivity].
    intros q. rewrite normalise_scale. f_equal. cbn. ring.
  - rewrite <- (B n bx by_ (map (fun x => normed2 periodic (sc_info i) (sc_part x)) us) (fun p => p_z p / c)). f_equal. rewrite map_map. apply map_ext. intros p. unfold normed2, sc_info. cbn [i_box i_xmin i_ymin i_max]. rewrite BX. cbn [p_x p_y p_z p_m p_h sc_part].
    rewrite <- !Rmult_minus_distr_l, !ratio. f_equal. field. lra.
Qed.

Lemma slice_scale backend frame n z periodic box r rotation mask ps :
  same_out (slice_grid backend c true frame n z periodic box r rotation mask ps) (slice_grid backend c false frame n (match z with None => None | Some z => Some (c * z) end) periodic (sc_vec box) (sc_region r) (sc_rotation rotation) mask (map sc_part ps)).
Proof.
  unfold slice_grid. destruct (region_info_scale false periodic box r) as (i & E1 & E2); [discriminate|]. rewrite E1, E2. cbn [bind]. rewrite placed_scale. destruct (placed _ _ _ _) as [[qs st]|e]; cbn [bind]; [|reflexivity].
  rewrite pick_map. destruct (pick mask qs) as [us|e]; cbn [bind]; [|reflexivity].
  cbn [sc_info i_box i_xrange i_yrange i_max]. destruct (i_box i) as [[bx by_] bz] eqn:BX. fold (sc_info i). rewrite map_map.
  assert (PX : forall x, pixels_slice n (c * x) (c * i_max i) = pixels_slice n x (i_max i)) by (intros x; unfold pixels_slice; f_equal; replace (IZR n * (c * x)) with (c * (IZR n * x)) by ring; apply ratio). rewrite !PX.
  replace (map (fun x => normed_slice periodic (sc_info i) (sc_part x)) us) with (map (normed_slice periodic i) us)
    by (apply map_ext; intros p; unfold normed_slice, sc_info; cbn [i_box i_xmin i_ymin i_max]; rewrite BX; cbn [p_x p_y p_z p_m p_h sc_part]; rewrite <- !Rmult_minus_distr_l, !ratio; reflexivity).
  replace ((match match z with Some z0 => Some (c * z0) | None => None end with Some z0 => z0 | None => 0 end + match sc_rotation rotation with Some (_, (_, _, c0)) => c0 | None => 0 end) / (c * i_max i))
    with ((match z with Some z0 => z0 | None => 0 end + match rotation with Some (_, (_, _, c0)) => c0 | None => 0 end) / i_max i).
  - destruct (backend _ _ _ bx by_ bz _) as [img|e]; cbn [bind same_out]; [|reflexivity]. cbn [pic_shape pic_image]. split; [reflexivity|]. split; [|reflexivity]. intros q. rewrite normalise_scale. f_equal. cbn. ring.
  - symmetry. destruct z; destruct rotation as [[m [[? ?] ?]]|]; cbn [sc_rotation sc_vec]; rewrite <- (ratio _ (i_max i)); f_equal; ring.
Qed.

Lemma voxels_scale backend frame n periodic box r rotation mask ps : cubic_numbers box r ->
  same_out (voxel_grid backend c true frame n periodic box r rotation mask ps) (voxel_grid backend c false frame n periodic (sc_vec box) (sc_region r) (sc_rotation rotation) mask (map sc_part ps)).
Proof.
  intros Q. unfold voxel_grid. destruct (region_info_scale true periodic box r (fun _ => Q)) as (i & E1 & E2). rewrite E1, E2. cbn [bind]. rewrite placed_scale. destruct (placed _ _ _ _) as [[qs st]|e]; cbn [bind]; [|reflexivity].
  rewrite pick_map. destruct (pick mask qs) as [us|e]; cbn [bind]; [|reflexivity].
  cbn [sc_info i_box i_xrange i_yrange i_zrange]. destruct (i_box i) as [[bx by_] bz] eqn:BX. fold (sc_info i). rewrite map_map.
  replace (map (fun x => normed3 periodic (sc_info i) (sc_part x)) us) with (map (normed3 periodic i) us)
    by (apply map_ext; intros p; unfold normed3, sc_info; cbn [i_box i_xmin i_ymin i_zmin i_xrange i_yrange i_zrange]; rewrite BX; cbn [p_x p_y p_z p_m p_h sc_part]; rewrite <- !Rmult_minus_distr_l, !ratio; reflexivity).
  destruct (backend n bx by_ bz _) as [img|e]; cbn [bind same_out]; [|reflexivity]. cbn [pic_shape pic_image]. split; [reflexivity|]. split; [|reflexivity]. intros q. rewrite normalise_scale. f_equal. cbn. ring.
Qed.
End Scale.

(** C42, C43, C62, C63: whole pictures of a dataset. *)
From Coq Require Import List ZArith Reals Bool Lia Lra.
From Verif Require Import Base BaseLemmas VisModel VisSpec VisSumProofs VisProofs VisTheorems RotModel HsmlModel
  HsmlProofs FrontModel FrontSpec FrontProofs.
Import ListNotations.
Open Scope R_scope.

(** * C42: the depth of a projection *)

(** A particle passes the depth mask of a periodic projection iff one of its images is in
    the range. *)
Theorem C42_periodic : forall L lo hi z, 0 < L -> 0 <= z < L -> 0 < hi - lo <= L ->
  (in_depth true L lo hi z = true <-> image_in L lo hi z).
Proof. exact in_depth_periodic. Qed.

(** With an empty range all particles pass, and with one given backwards those in the
    range up to the next copy of its end. *)
Theorem C42_backwards : forall L lo hi z, 0 < L -> 0 <= z < L -> - L < hi - lo <= 0 ->
  (in_depth true L lo hi z = true <-> image_in L lo (hi + L) z).
Proof. exact in_depth_backwards. Qed.
Theorem C42_empty_range_refuted : forall L lo z, 0 < L -> 0 <= z < L -> in_depth true L lo lo z = true.
Proof.
  intros L lo z HL Hz. apply in_depth_backwards; auto; [lra|].
  exists (floor (lo / L) + (if Rle_dec (rmod lo L) z then 0 else 1))%Z.
  pose proof (rmod_form lo L) as E. pose proof (rmod_range lo L HL) as Rg.
  rewrite plus_IZR. destruct (Rle_dec (rmod lo L) z); cbn [IZR]; lra.
Qed.

Theorem C42_not_periodic : forall L lo hi z, in_depth false L lo hi z = true <-> lo <= z <= hi.
Proof. intros. unfold in_depth. rewrite andb_true_iff, !leb_iff. tauto. Qed.

Example C42_case : image_in 10 (-2) 1 9 /\ ~ image_in 10 (-2) 1 5 /\ (0 < 10) /\ (0 < 1 - (-2) <= 10).
Proof.
  split; [exists (-1)%Z; lra|]. split; [|lra]. intros (k & K1 & K2).
  assert (-1 < IZR k < 0) by lra. assert (-1 < k < 0)%Z by (split; apply lt_IZR; lra). lia.
Qed.

(** Depths beyond the box are refused. *)
Theorem C42_too_deep : forall backend a coords frame n lx ly lz r lo hi rotation mask ps, r_z r = Some (lo, hi) ->
  lz < hi - lo -> exists e, project backend a coords frame n true (lx, ly, lz) (Some r) rotation mask ps = Err e.
Proof.
  intros backend a coords frame n lx ly lz r lo hi rotation mask ps Hz H. unfold project, region_info. rewrite Hz. cbn [andb bind].
  unfold placed. destruct rotation as [(matrix & center)|]; cbn [bind]; [exists ValueError; reflexivity|].
  unfold depth_mask. cbn [i_has_z i_zrange andb].
  destruct (leb (hi - lo) lz) eqn:E; [apply leb_iff in E; lra|]. exists ValueError. reflexivity.
Qed.

(** A picture with a depth is the picture without of the wanted particles. *)
Theorem C42_wanted : forall backend a coords frame n periodic lx ly lz r rotation ps keep,
  (periodic = true -> rotation = None /\ 0 < lz) ->
  (periodic = true -> match r_z r with Some (lo, hi) => 0 < hi - lo <= lz | None => True end) ->
  (forall p, In p ps -> (keep p = true <-> wanted periodic lz (r_z r) (at_z (seen rotation p)))) ->
  drawn (project backend a coords frame n periodic (lx, ly, lz) (Some r) rotation None ps)
  = drawn (project backend a coords frame n periodic (lx, ly, lz) (Some (flat r)) rotation None (filter keep ps)).
Proof.
  intros backend a coords frame n periodic lx ly lz r rotation ps keep Hp Hr Hk. unfold project, region_info.
  rewrite !placed_put by (intro E; apply (proj1 (Hp E))). cbn [flat r_xmin r_xmax r_ymin r_ymax r_z andb].
  destruct (r_z r) as [(lo & hi)|] eqn:Ez; cbn [bind].
  - unfold depth_mask. cbn [i_has_z i_zrange i_zmin i_zmax].
    assert (T : periodic && negb (leb (hi - lo) lz) = false).
    { destruct periodic; auto. cbn [andb]. specialize (Hr eq_refl). rewrite (proj2 (leb_iff _ _)) by lra. reflexivity. }
    rewrite T. cbn [bind]. set (f := fun p => in_depth periodic lz lo hi (p_z p)).
    rewrite pick_map. cbn [bind pick]. rewrite filter_map.
    assert (F : filter (fun p => f (put periodic (lx, ly, lz) rotation p)) ps = filter keep ps).
    { apply filter_ext_in. intros p Hin. specialize (Hk p Hin). unfold wanted in Hk.
      apply Bool.eq_iff_eq_true. rewrite Hk. unfold f, put.
      rewrite (proj1 (proj2 (proj2 (moved_fields p _)))).
      destruct (seen rotation p) as ((x & y) & z). cbn [at_z snd]. destruct periodic.
      - destruct (Hp eq_refl) as (_ & HL). unfold rem_point, at_z. cbn [snd].
        pose proof (rmod_range z lz HL). rewrite in_depth_periodic by auto.
        destruct (rmod_image z lz) as (k & E). rewrite E. apply image_in_shift.
      - apply C42_not_periodic. }
    rewrite F. cbn [i_box]. destruct periodic; cbn [normed2 i_box]; unfold drawn.
    + destruct (backend n _ _ _) as [img|e]; cbn [bind]; reflexivity.
    + destruct (backend n _ _ _) as [img|e]; cbn [bind]; reflexivity.
  - assert (F : filter keep ps = ps).
    { clear - Hk. induction ps as [|p t IH]; cbn [filter]; auto.
      rewrite (proj2 (Hk p (or_introl eq_refl))) by exact I. f_equal. apply IH. intros q Hq. apply Hk. right; auto. }
    rewrite F. reflexivity.
Qed.

(** A picture with a mask is the picture of the particles picked. *)
Theorem C42_mask : forall backend a coords frame n periodic box r rotation bs ps,
  (periodic = true -> rotation = None) -> length bs = length ps ->
  drawn (project backend a coords frame n periodic box r rotation (Some bs) ps)
  = drawn (project backend a coords frame n periodic box r rotation None
             (map snd (filter fst (combine bs ps)))).
Proof.
  intros backend a coords frame n periodic ((lx & ly) & lz) r rotation bs ps Hp HL. unfold project.
  destruct (region_info false periodic (lx, ly, lz) r) as [i|e]; [|reflexivity]. cbn [bind].
  rewrite !placed_put by auto. cbn [bind].
  assert (Len : forall A (l : list A), length l = length bs -> (zlen bs =? zlen l)%Z = true).
  { intros A l E. unfold zlen. rewrite E. apply Z.eqb_refl. }
  assert (Com : forall (g : part -> part) bs ps,
    map snd (filter fst (combine bs (map g ps))) = map g (map snd (filter fst (combine bs ps)))).
  { induction bs0 as [|b t IH]; intros [|p ps']; cbn; auto. destruct b; cbn; rewrite IH; reflexivity. }
  assert (And : forall (f : part -> bool) bs ps, length bs = length ps ->
    map snd (filter fst (combine (map (fun ab => fst ab && snd ab) (combine bs (map f ps))) ps))
    = filter f (map snd (filter fst (combine bs ps)))).
  { induction bs0 as [|b t IH]; intros [|p ps'] E; cbn; auto; try discriminate.
    destruct b, (f p) eqn:Ef; cbn; rewrite ?Ef, IH by (cbn in E; lia); reflexivity. }
  assert (Lz : forall A B (l : list A) (m : list B), length l = length m -> zlen l = zlen m)
    by (intros A B l m E; unfold zlen; rewrite E; reflexivity).
  unfold depth_mask. destruct (i_has_z i).
  - destruct (periodic && negb (leb (i_zrange i) lz)); cbn [bind]; [reflexivity|].
    rewrite Len by (rewrite !map_length; auto). cbn [bind]. rewrite pick_map. cbn [bind].
    set (qs := map (put periodic (lx, ly, lz) rotation) ps).
    unfold pick. rewrite (Lz _ _ _ qs).
    2: { unfold qs. rewrite map_length, combine_length, !map_length. lia. }
    rewrite Z.eqb_refl. cbn [bind]. rewrite And by (unfold qs; rewrite map_length; auto).
    unfold qs. rewrite Com. set (used := filter _ _). destruct (i_box i) as ((bx & by_) & bz).
    unfold drawn. destruct (backend n bx by_ _); reflexivity.
  - cbn [bind pick]. rewrite Len by (rewrite map_length; auto). cbn [bind]. rewrite Com.
    destruct (i_box i) as ((bx & by_) & bz). unfold drawn. destruct (backend n bx by_ _); reflexivity.
Qed.

(** A mask must have one entry for each particle: without a depth range the particles cannot be
    picked (IndexError), with one the mask cannot be combined with the depth (ValueError). *)
Theorem C42_mask_length : forall backend a coords frame n periodic lx ly lz r rotation bs ps,
  (periodic = true -> rotation = None) -> length bs <> length ps ->
  project backend a coords frame n periodic (lx, ly, lz) r rotation (Some bs) ps
  = Err match r with
        | Some r => match r_z r with Some _ => ValueError | None => IndexError end
        | None => IndexError
        end.
Proof.
  intros backend a coords frame n periodic lx ly lz r rotation bs ps Hp HL. unfold project.
  assert (Len : forall A (l : list A), length l = length ps -> (zlen bs =? zlen l)%Z = false).
  { intros A l E. unfold zlen. rewrite E. apply Z.eqb_neq. lia. }
  unfold region_info. cbn [andb]. rewrite placed_put by auto.
  destruct r as [r|]; [destruct (r_z r) as [[z0 z1]|]|]; cbn [bind depth_mask i_has_z i_zrange i_zmin i_zmax].
  - destruct (periodic && _); [reflexivity|]. rewrite Len by (rewrite !map_length; reflexivity). reflexivity.
  - unfold pick. rewrite Len by (rewrite map_length; reflexivity). reflexivity.
  - unfold pick. rewrite Len by (rewrite map_length; reflexivity). reflexivity.
Qed.

Theorem C62_mask_length : forall backend a coords frame n z periodic lx ly lz r rotation bs ps,
  (periodic = true -> rotation = None) -> length bs <> length ps ->
  slice_grid backend a coords frame n z periodic (lx, ly, lz) r rotation (Some bs) ps = Err IndexError.
Proof.
  intros backend a coords frame n z periodic lx ly lz r rotation bs ps Hp HL. unfold slice_grid.
  rewrite placed_put by auto. unfold region_info. cbn [andb].
  destruct r as [r|]; [destruct (r_z r) as [[z0 z1]|]|]; cbn [bind pick];
    (replace (zlen bs =? _)%Z with false; [reflexivity|]); symmetry; apply Z.eqb_neq; unfold zlen;
    rewrite map_length; lia.
Qed.

Theorem C63_mask_length : forall backend a coords frame n periodic box r rotation bs ps pic,
  (periodic = true -> rotation = None) -> length bs <> length ps ->
  voxel_grid backend a coords frame n periodic box r rotation None ps = Ok pic ->
  voxel_grid backend a coords frame n periodic box r rotation (Some bs) ps = Err IndexError.
Proof.
  intros backend a coords frame n periodic box r rotation bs ps pic Hp HL. unfold voxel_grid.
  rewrite placed_put by auto. destruct (region_info true periodic box r) as [i|e]; [|discriminate]. intros _. cbn [bind pick].
  replace (zlen bs =? _)%Z with false; [reflexivity|]. symmetry. apply Z.eqb_neq. unfold zlen. rewrite map_length. lia.
Qed.

(** * C43: the surface density of a pixel *)

Lemma convert_factor : forall a d coords f v, a <> 0 -> convert a d coords f v = v * length_factor a coords f ^ d.
Proof.
  intros a d coords f v Ha. unfold convert, length_factor. destruct coords, f; rewrite ?pow1; try ring.
  rewrite pow_inv. reflexivity.
Qed.

Lemma factor_pos : forall a coords f d, 0 < a -> 0 < length_factor a coords f ^ d.
Proof.
  intros. apply pow_lt. unfold length_factor. destruct coords, f; try lra. apply Rinv_0_lt_compat; auto.
Qed.

(** [image[:stop]] keeps the entries below [stop], and for a negative one all but the last. *)
Theorem C43_trimmed : forall n stop, (0 <= n)%Z -> (0 <= stop_index n stop <= n)%Z /\
  forall i, (0 <= i < stop_index n stop <-> 0 <= i < n /\ (0 <= stop -> i < stop) /\ (stop < 0 -> i < n + stop))%Z.
Proof. intros n stop Hn. unfold stop_index. destruct (Z.ltb_spec stop 0); split; intros; lia. Qed.

Lemma stop_needed : forall n range M, 0 < range <= M -> (1 <= n)%Z ->
  needed range (M / IZR n) (stop_index n (pixels n range M)) /\ (1 <= stop_index n (pixels n range M) <= n)%Z.
Proof.
  intros n range M Hr Hn. pose proof (n_pos n Hn) as Np. unfold pixels.
  pose proof (ceil_spec (IZR n * (range / M))) as C. set (k := ceil _) in *. clearbody k.
  assert (Q : IZR n * (range / M) * (M / IZR n) = range) by (field; lra).
  assert (P : 0 < M / IZR n) by (apply Rdiv_lt_0_compat; lra).
  assert (0 < range / M) by (apply Rdiv_lt_0_compat; lra).
  assert (range / M <= 1). { apply (Rmult_le_reg_r M); [lra|]. unfold Rdiv. rewrite Rmult_assoc, Rinv_l; lra. }
  assert (1 <= k)%Z. { assert (0 < k)%Z by (apply lt_IZR; nra). lia. }
  assert (k <= n)%Z. { assert (k < n + 1)%Z by (apply lt_IZR; rewrite plus_IZR; nra). lia. }
  unfold stop_index. destruct (Z.ltb_spec k 0); [lia|]. rewrite Z.min_l by lia. split; [|lia].
  unfold needed. split; nra.
Qed.

(** Hypotheses on a particle: its kernel fits the box, and [A], [B] list the copies. *)
Definition drawable (periodic : bool) (lx ly : R) (r : region) (A B : part -> list Z) (c : part -> vec) (p : part) : Prop :=
  0 <= p_h p /\ (periodic = true -> width2 p <= lx /\ width2 p <= ly) /\
  covers periodic lx (r_xmin r) (r_xmin r + extent r) (width2 p) (at_x (c p)) (A p) /\
  covers periodic ly (r_ymin r) (r_ymin r + extent r) (width2 p) (at_y (c p)) (B p).

(** The sum over the particles and their copies in pixel (i, j). *)
Definition density2 (lx ly : R) (n : Z) (r : region) (A B : part -> list Z) (c : part -> vec) (ps : list part) (i j : Z) : R :=
  let d := extent r / IZR n in
  sumR (map (fun p => over2 (A p) (B p) (fun a b =>
    share2 d p (at_x (c p) + a * lx) (at_y (c p) + b * ly)
      (r_xmin r + IZR i * d) (r_ymin r + IZR j * d))) ps).

Lemma normed2_put : forall periodic lx ly lz r z0 z1 xr yr zr has rotation p,
  normed2 periodic (mkinfo (r_xmin r) (r_ymin r) z0 z1 xr yr zr (extent r) has
     (if periodic then (lx / extent r, ly / extent r, lz / extent r) else (0, 0, 0)))
    (put periodic (lx, ly, lz) rotation p)
  = mkpart (ncoord periodic lx (extent r) (r_xmin r) (at_x (seen rotation p)))
           (ncoord periodic ly (extent r) (r_ymin r) (at_y (seen rotation p)))
           (coord periodic lz (at_z (seen rotation p))) (p_m p) (p_h p / extent r).
Proof.
  intros. unfold normed2, put. destruct (seen rotation p) as ((x & y) & z). destruct periodic; reflexivity.
Qed.

Lemma extent_pos : forall r, 0 < x_extent r -> 0 < extent r.
Proof. intros r H. unfold extent. pose proof (Rmax_l (x_extent r) (y_extent r)). lra. Qed.

(** The picture of the fast projection: pixel (i, j) of side [extent / n] is the sum of what
    the copies deposit there, times [extent² / (x_extent y_extent)]. *)
Theorem C43_pixels : forall a coords f n periodic lx ly lz r rotation ps A B,
  0 < a -> (1 <= n)%Z -> 0 < x_extent r -> 0 < y_extent r -> r_z r = None ->
  (periodic = true -> rotation = None /\ 0 < lx /\ 0 < ly) ->
  (forall p, In p ps -> drawable periodic lx ly r A B (seen rotation) p) ->
  exists rows cols img,
    drawn (project fast a coords (Some f) n periodic (lx, ly, lz) (Some r) rotation None ps)
    = Ok (mkpicture [rows; cols] img) /\
    needed (x_extent r) (extent r / IZR n) rows /\ needed (y_extent r) (extent r / IZR n) cols /\
    (1 <= rows <= n)%Z /\ (1 <= cols <= n)%Z /\
    forall i j, (0 <= i < rows)%Z -> (0 <= j < cols)%Z ->
      img [i; j] * length_factor a coords f ^ 2
      = extent r * extent r / (x_extent r * y_extent r) * density2 lx ly n r A B (seen rotation) ps i j.
Proof.
  intros a coords f n periodic lx ly lz r rotation ps A B Ha Hn Hx Hy Hz Hp Hd.
  pose proof (extent_pos r Hx) as HM.
  assert (Mx : x_extent r <= extent r) by apply Rmax_l. assert (My : y_extent r <= extent r) by apply Rmax_r.
  unfold project, region_info. rewrite Hz. cbn [andb bind].
  rewrite placed_put by (intro E; apply (Hp E)). cbn [bind depth_mask i_has_z pick i_box].
  fold (x_extent r) (y_extent r) (extent r). unfold drawn.
  replace (if periodic then (lx / extent r, ly / extent r, lz / extent r) else (0, 0, 0))
    with (pbox periodic lx (extent r), pbox periodic ly (extent r), pbox periodic lz (extent r))
    by (unfold pbox; destruct periodic; reflexivity).
  set (inf := mkinfo _ _ _ _ _ _ _ _ _ _). cbn [bind].
  set (qs := map (normed2 periodic inf) _).
  assert (Eqs : qs = map (fun p => mkpart (ncoord periodic lx (extent r) (r_xmin r) (at_x (seen rotation p)))
           (ncoord periodic ly (extent r) (r_ymin r) (at_y (seen rotation p)))
           (coord periodic lz (at_z (seen rotation p))) (p_m p) (p_h p / extent r)) ps).
  { unfold qs. rewrite map_map. apply map_ext. intro p. rewrite <- (normed2_put periodic lx ly lz r 0 lz (x_extent r) (y_extent r) (lz - 0) false).
    unfold inf, pbox. destruct periodic; reflexivity. }
  destruct (enough_exists (pbox periodic lx (extent r)) (pbox periodic ly (extent r)) 0) as (N & Ex & Ey & _);
    [apply pbox_nonneg; auto; intro E; apply (Hp E)|apply pbox_nonneg; auto; intro E; apply (Hp E)|lra|].
  destruct (C38_pixels n (pbox periodic lx (extent r)) (pbox periodic ly (extent r)) qs N Hn) as (img & Ei & Vi); auto.
  { apply pbox_nonneg; auto. intro E. apply (Hp E). } { apply pbox_nonneg; auto. intro E. apply (Hp E). }
  { intros q Hq. rewrite Eqs in Hq. apply in_map_iff in Hq. destruct Hq as (p & <- & Hin).
    destruct (Hd p Hin) as (Hh & Hw & _ & _). unfold settled2.
    assert (Ew : width2 (mkpart (ncoord periodic lx (extent r) (r_xmin r) (at_x (seen rotation p)))
           (ncoord periodic ly (extent r) (r_ymin r) (at_y (seen rotation p)))
           (coord periodic lz (at_z (seen rotation p))) (p_m p) (p_h p / extent r)) = width2 p / extent r)
      by (unfold width2; cbn [p_h]; field; lra).
    rewrite Ew. cbn [p_h p_x p_y]. split; [|split; [|split; [|split]]].
    - apply Rmult_le_pos; auto. apply Rlt_le, Rinv_0_lt_compat; auto.
    - apply coord_wrapped; auto. intro E. apply (Hp E).
    - apply coord_wrapped; auto. intro E. apply (Hp E).
    - apply pbox_fits; auto. intro E. apply (Hw E).
    - apply pbox_fits; auto. intro E. apply (Hw E). }
  destruct (stop_needed n (x_extent r) (extent r)) as (N1 & R1); [lra|auto|].
  destruct (stop_needed n (y_extent r) (extent r)) as (N2 & R2); [lra|auto|].
  exists (stop_index n (pixels n (x_extent r) (extent r))), (stop_index n (pixels n (y_extent r) (extent r))).
  exists (normalise a 2 coords (Some f) (x_extent r * y_extent r) img).
  split; [clear - Ei; clearbody qs; unfold pbox in Ei; destruct periodic; rewrite Ei; reflexivity|]. split; [exact N1|]. split; [exact N2|]. split; [exact R1|]. split; [exact R2|].
  intros i j Hi Hj. unfold normalise. rewrite convert_factor by lra.
  rewrite Vi by lia. pose proof (factor_pos a coords f 2 Ha) as Fp.
  assert (S : sum_copies2 (pbox periodic lx (extent r)) (pbox periodic ly (extent r)) N qs (fun p x y => deposit2 n p x y i j)
            = extent r * extent r * density2 lx ly n r A B (seen rotation) ps i j).
  { unfold sum_copies2, density2. rewrite Eqs, map_map. cbv zeta. rewrite <- sumR_scal. apply sumR_ext. intros p Hin.
    destruct (Hd p Hin) as (Hh & Hw & CA & CB). cbn [p_x p_y].
    set (q := mkpart _ _ _ _ _).
    rewrite (picture2 periodic lx ly (extent r) (r_xmin r) (r_ymin r) (width2 p) (at_x (seen rotation p)) (at_y (seen rotation p)) N (A p) (B p)
      (fun x y => deposit2 n q x y i j)
      (fun x y => extent r * extent r * share2 (extent r / IZR n) p x y
          (r_xmin r + IZR i * (extent r / IZR n)) (r_ymin r + IZR j * (extent r / IZR n)))); auto.
    - unfold over2. rewrite <- sumR_scal. apply sumR_ext. intros k _. rewrite <- sumR_scal. reflexivity.
    - intro E. destruct (Hp E) as (_ & H1 & H2). destruct (Hw E). auto.
    - intros u v. apply deposit2_scale; auto.
    - intros u v Hne. apply (share2_reach n (extent r) (r_xmin r) (r_ymin r) p u v i j); auto; try lia.
      intro E. apply Hne. rewrite E. ring. }
  rewrite S. set (F := length_factor a coords f ^ 2) in *. clearbody F. field. repeat split; lra.
Qed.

(** Its sum over the returned pixels times their area is the mass deposited in them if and
    only if the region is square or nothing is deposited. *)
Theorem C43_total : forall a coords f n periodic lx ly lz r rotation ps A B rows cols img,
  0 < a -> (1 <= n)%Z -> 0 < x_extent r -> 0 < y_extent r -> r_z r = None ->
  (periodic = true -> rotation = None /\ 0 < lx /\ 0 < ly) ->
  (forall p, In p ps -> drawable periodic lx ly r A B (seen rotation) p) ->
  drawn (project fast a coords (Some f) n periodic (lx, ly, lz) (Some r) rotation None ps)
    = Ok (mkpicture [rows; cols] img) ->
  let area := extent r / IZR n * (extent r / IZR n) in
  let deposited := total rows cols (fun c => match c with
    | [i; j] => area * density2 lx ly n r A B (seen rotation) ps i j | _ => 0 end) in
  total rows cols img * (area * length_factor a coords f ^ 2)
    = extent r * extent r / (x_extent r * y_extent r) * deposited /\
  (total rows cols img * (area * length_factor a coords f ^ 2) = deposited
   <-> x_extent r = y_extent r \/ deposited = 0).
Proof.
  intros a coords f n periodic lx ly lz r rotation ps A B rows cols img Ha Hn Hx Hy Hz Hp Hd E area deposited.
  destruct (C43_pixels a coords f n periodic lx ly lz r rotation ps A B) as (rows' & cols' & img' & E' & _ & _ & _ & _ & V); auto.
  rewrite E in E'. injection E' as <- <- <-.
  assert (T : total rows cols img * (area * length_factor a coords f ^ 2)
              = extent r * extent r / (x_extent r * y_extent r) * deposited).
  { unfold deposited, total. rewrite <- sumR_scal, <- sumR_scal_r. apply sumR_ext. intros i Hi.
    rewrite <- sumR_scal, <- sumR_scal_r. apply sumR_ext. intros j Hj. apply In_zrange in Hi. apply In_zrange in Hj.
    replace (img [i; j] * (area * length_factor a coords f ^ 2)) with (area * (img [i; j] * length_factor a coords f ^ 2)) by ring.
    rewrite V by lia. ring. }
  split; [exact T|]. rewrite T. clearbody deposited. clear - Hx Hy. split.
  - intro H. destruct (Req_EM_T (x_extent r) (y_extent r)) as [Q|Q]; [left; exact Q|right].
    assert (K : (extent r * extent r - x_extent r * y_extent r) * deposited = 0).
    { apply (Rmult_eq_compat_r (x_extent r * y_extent r)) in H.
      replace (extent r * extent r / (x_extent r * y_extent r) * deposited * (x_extent r * y_extent r))
        with (extent r * extent r * deposited) in H by (field; lra). lra. }
    apply Rmult_integral in K. destruct K as [K|K]; auto. exfalso.
    unfold extent in K. destruct (Rle_dec (x_extent r) (y_extent r)) as [G|G];
      [rewrite Rmax_right in K by lra | rewrite Rmax_left in K by lra]; nra.
  - intros [Q | ->]; [|ring]. unfold extent. rewrite Q, Rmax_left by lra. field. lra.
Qed.

(** A region of two by one: twice the mass. *)
Theorem C43_not_square_refuted : exists r p img, x_extent r = 2 * y_extent r /\ p_m p = 1 /\
  drawn (project fast 1 true (Some true) 2 false (2, 2, 2) (Some r) None None [p]) = Ok (mkpicture [2; 1]%Z img) /\
  total 2 1 img * ((2 / 2) * (2 / 2)) = 2 * p_m p.
Proof.
  set (r := mkregion 0 2 0 1 None). set (p := mkpart (1 / 2) (1 / 2) 0 1 0).
  assert (Xr : x_extent r = 2) by (unfold x_extent; cbn; lra). assert (Yr : y_extent r = 1) by (unfold y_extent; cbn; lra).
  assert (Er : extent r = 2) by (unfold extent; rewrite Xr, Yr; apply Rmax_left; lra).
  set (A := fun _ : part => [0%Z]).
  assert (Dr : forall q, In q [p] -> drawable false 2 2 r A A (seen None) q).
  { intros q [<-|[]]. unfold drawable. cbn. repeat split; try lra; discriminate. }
  destruct (C43_pixels 1 true true 2 false 2 2 2 r None [p] A A) as (rows & cols & img & E & N1 & N2 & R1 & R2 & V);
    try lra; try lia; auto; try discriminate.
  rewrite Er, Xr in N1. rewrite Er, Yr in N2. unfold needed in N1, N2. cbn [IZR IPR IPR_2] in N1, N2.
  assert (rows = 2)%Z. { assert (1 < rows)%Z by (apply lt_IZR; lra). lia. }
  assert (cols = 1)%Z. { assert (cols < 2)%Z by (apply lt_IZR; lra). lia. } subst rows cols.
  exists r, p, img. split; [lra|]. split; [reflexivity|]. split; [exact E|].
  unfold total. change (zrange 0 2) with [0; 1]%Z. change (zrange 0 1) with [0]%Z. cbn [map].
  assert (D : forall i, (0 <= i < 2)%Z -> img [i; 0%Z] = 2 * (if (i =? 0)%Z then 1 else 0)).
  { intros i Hi. specialize (V i 0%Z Hi ltac:(lia)). unfold length_factor in V. rewrite pow1, Rmult_1_r in V.
    rewrite V, Er, Xr, Yr. unfold density2. rewrite Er. cbn [map]. rewrite sumR_cons, sumR_nil. unfold A. rewrite over2_one.
    unfold share2, width2, p, seen, position, at_x, at_y. cbn [p_x p_y p_z p_m p_h fst snd r_xmin r_ymin r].
    destruct (Rlt_dec _ _) as [L|L]; [|lra]. unfold within_b.
    assert (i = 0 \/ i = 1)%Z as [-> | ->] by lia; cbn [Z.eqb].
    - repeat match goal with
             | |- context [Rle_dec ?u ?v] => destruct (Rle_dec u v); [|lra]
             | |- context [Rlt_dec ?u ?v] => destruct (Rlt_dec u v); [|lra]
             end.
      cbn [andb]. lra.
    - destruct (Rle_dec _ _); [lra|]. cbn [andb]. lra. }
  rewrite !D by lia. cbn [Z.eqb]. rewrite !sumR_cons, !sumR_nil. unfold p. cbn [p_m]. lra.
Qed.

(** A field that does not know whether it is comoving is not normalised at all. *)
Theorem C43_no_frame : forall backend a coords f n periodic box r rotation mask ps img st,
  0 < a -> project backend a coords None n periodic box (Some r) rotation mask ps = Ok (img, st) ->
  0 < x_extent r -> 0 < y_extent r ->
  exists img', project backend a coords (Some f) n periodic box (Some r) rotation mask ps = Ok (img', st) /\
    pic_shape img' = pic_shape img /\
    forall c, pic_image img c = pic_image img' c * (x_extent r * y_extent r * length_factor a coords f ^ 2).
Proof.
  intros backend a coords f n periodic ((lx & ly) & lz) r rotation mask ps img st Ha E Hx Hy. unfold project in *.
  destruct (region_info false periodic (lx, ly, lz) (Some r)) as [inf|e] eqn:Ei; [|discriminate]. cbn [bind] in *.
  destruct (placed periodic (lx, ly, lz) rotation ps) as [(qs & st')|e]; [|discriminate]. cbn [bind] in *.
  destruct (depth_mask periodic (lx, ly, lz) inf mask qs) as [m|e]; [|discriminate]. cbn [bind] in *.
  destruct (pick m qs) as [used|e]; [|discriminate]. cbn [bind] in *.
  destruct (i_box inf) as ((bx & by_) & bz). destruct (backend n bx by_ _) as [im|e]; [|discriminate]. cbn [bind] in *.
  injection E as <- <-. eexists. split; [reflexivity|]. split; [reflexivity|]. intro c. cbn [pic_image]. unfold normalise.
  assert (Xr : i_xrange inf = x_extent r /\ i_yrange inf = y_extent r).
  { unfold region_info in Ei. cbn [andb] in Ei. destruct (r_z r) as [(z0 & z1)|]; injection Ei as <-; split; reflexivity. }
  destruct Xr as (-> & ->). rewrite convert_factor by lra. pose proof (factor_pos a coords f 2 Ha).
  set (F := length_factor a coords f ^ 2) in *. clearbody F. field. repeat split; lra.
Qed.

(** Without a region the whole box is drawn. *)
Theorem C43_no_region : forall backend a coords frame n periodic lx ly lz rotation mask ps,
  project backend a coords frame n periodic (lx, ly, lz) None rotation mask ps
  = project backend a coords frame n periodic (lx, ly, lz) (Some (mkregion 0 lx 0 ly None)) rotation mask ps.
Proof. reflexivity. Qed.

(** A periodic picture wraps the coordinates of the dataset, by whole boxes; drawing it
    again gives the same. *)
Theorem C43_stored : forall backend a coords frame n periodic lx ly lz r rotation mask ps pic st,
  (periodic = true -> 0 < lx /\ 0 < ly /\ 0 < lz) ->
  project backend a coords frame n periodic (lx, ly, lz) r rotation mask ps = Ok (pic, st) ->
  (periodic = false -> st = ps) /\
  (periodic = true -> Forall2 (fun p q => p_m q = p_m p /\ p_h q = p_h p /\
     0 <= p_x q < lx /\ 0 <= p_y q < ly /\ 0 <= p_z q < lz /\
     exists i j k, p_x q = p_x p + IZR i * lx /\ p_y q = p_y p + IZR j * ly /\ p_z q = p_z p + IZR k * lz) ps st) /\
  project backend a coords frame n periodic (lx, ly, lz) r rotation mask st = Ok (pic, st).
Proof.
  intros backend a coords frame n periodic lx ly lz r rotation mask ps pic st HL E.
  assert (Hr : periodic = true -> rotation = None).
  { intros ->. destruct rotation as [(m & c)|]; auto. exfalso. unfold project in E.
    destruct (region_info false true (lx, ly, lz) r); discriminate. }
  assert (St : st = if periodic then map (put periodic (lx, ly, lz) rotation) ps else ps).
  { unfold project in E. destruct (region_info false periodic (lx, ly, lz) r) as [inf|e]; [|discriminate]. cbn [bind] in E.
    rewrite placed_put in E by auto. cbn [bind] in E.
    destruct (depth_mask _ _ _ _ _) as [m|e]; [|discriminate]. cbn [bind] in E.
    destruct (pick _ _) as [used|e]; [|discriminate]. cbn [bind] in E.
    destruct (i_box inf) as ((bx & by_) & bz). destruct (backend n bx by_ _) as [im|e]; [|discriminate]. cbn [bind] in E.
    injection E as _ <-. reflexivity. }
  destruct periodic.
  - rewrite (Hr eq_refl) in *. destruct (HL eq_refl) as (Hx & Hy & Hz).
    split; [discriminate|]. split.
    + intros _. subst st. clear E. induction ps as [|p t IH]; cbn [map]; constructor; auto.
      unfold put, moved, rem_point, seen, position. cbn [p_m p_h p_x p_y p_z].
      split; [reflexivity|]. split; [reflexivity|].
      split; [apply rmod_range; auto|]. split; [apply rmod_range; auto|]. split; [apply rmod_range; auto|].
      destruct (rmod_image (p_x p) lx) as (i & ->). destruct (rmod_image (p_y p) ly) as (j & ->).
      destruct (rmod_image (p_z p) lz) as (k & ->). exists i, j, k. repeat split; reflexivity.
    + assert (I : map (put true (lx, ly, lz) None) st = st).
      { subst st. rewrite map_map. apply map_ext. intro p. unfold put, moved, rem_point, seen, position.
        cbn [p_m p_h p_x p_y p_z]. rewrite !(rmod_small (rmod _ _)) by (apply rmod_range; auto). reflexivity. }
      unfold project in *. destruct (region_info false true (lx, ly, lz) r) as [inf|e]; [|discriminate]. cbn [bind] in *.
      rewrite placed_put in * by auto. cbn [bind] in *. rewrite I. rewrite <- St in E. exact E.
  - split; [intros _; exact St|]. split; [discriminate|]. rewrite St. rewrite St in E. exact E.
Qed.

(** The histogram: a pixel is the mass of the copies in it over its area, times the same
    factor. *)
Definition counted (d : R) (p : part) (x y u v : R) : R :=
  if within_b u d x && within_b v d y then p_m p / (d * d) else 0.
Theorem C43_histogram : forall a coords f n periodic lx ly lz r rotation ps A B,
  0 < a -> (1 <= n)%Z -> 0 < x_extent r -> 0 < y_extent r -> r_z r = None ->
  (periodic = true -> rotation = None /\ 0 < lx /\ 0 < ly) ->
  (forall p, In p ps ->
    covers periodic lx (r_xmin r) (r_xmin r + extent r) 0 (at_x (seen rotation p)) (A p) /\
    covers periodic ly (r_ymin r) (r_ymin r + extent r) 0 (at_y (seen rotation p)) (B p)) ->
  exists rows cols img,
    drawn (project histogram a coords (Some f) n periodic (lx, ly, lz) (Some r) rotation None ps)
    = Ok (mkpicture [rows; cols] img) /\
    needed (x_extent r) (extent r / IZR n) rows /\ needed (y_extent r) (extent r / IZR n) cols /\
    forall i j, (0 <= i < rows)%Z -> (0 <= j < cols)%Z ->
      let d := extent r / IZR n in
      img [i; j] * length_factor a coords f ^ 2
      = extent r * extent r / (x_extent r * y_extent r) *
        sumR (map (fun p => over2 (A p) (B p) (fun a b =>
          counted d p (at_x (seen rotation p) + a * lx) (at_y (seen rotation p) + b * ly)
            (r_xmin r + IZR i * d) (r_ymin r + IZR j * d))) ps).
Proof.
  intros a coords f n periodic lx ly lz r rotation ps A B Ha Hn Hx Hy Hz Hp Hd.
  pose proof (extent_pos r Hx) as HM. pose proof (n_pos n Hn) as Np.
  assert (Mx : x_extent r <= extent r) by apply Rmax_l. assert (My : y_extent r <= extent r) by apply Rmax_r.
  unfold project, region_info. rewrite Hz. cbn [andb bind].
  rewrite placed_put by (intro E; apply (Hp E)). cbn [bind depth_mask i_has_z pick i_box].
  fold (x_extent r) (y_extent r) (extent r). unfold drawn.
  set (inf := mkinfo _ _ _ _ _ _ _ _ _ _). cbn [bind].
  set (qs := map (normed2 periodic inf) _).
  assert (Eqs : qs = map (fun p => mkpart (ncoord periodic lx (extent r) (r_xmin r) (at_x (seen rotation p)))
           (ncoord periodic ly (extent r) (r_ymin r) (at_y (seen rotation p)))
           (coord periodic lz (at_z (seen rotation p))) (p_m p) (p_h p / extent r)) ps).
  { unfold qs. rewrite map_map. apply map_ext. intro p. rewrite <- (normed2_put periodic lx ly lz r 0 lz (x_extent r) (y_extent r) (lz - 0) false).
    unfold inf, pbox. destruct periodic; reflexivity. }
  assert (Bx : 0 <= pbox periodic lx (extent r)) by (apply pbox_nonneg; auto; intro E; apply (Hp E)).
  assert (By : 0 <= pbox periodic ly (extent r)) by (apply pbox_nonneg; auto; intro E; apply (Hp E)).
  destruct (enough_exists (pbox periodic lx (extent r)) (pbox periodic ly (extent r)) 0) as (N & Ex & Ey & _); auto; [lra|].
  destruct (C39_pixels n (pbox periodic lx (extent r)) (pbox periodic ly (extent r)) qs N Hn) as (img & Ei & Vi); auto.
  { intros q Hq. rewrite Eqs in Hq. apply in_map_iff in Hq. destruct Hq as (p & <- & Hin). cbn [p_x p_y].
    split; apply coord_wrapped; auto; intro E; apply (Hp E). }
  destruct (stop_needed n (x_extent r) (extent r)) as (N1 & R1); [lra|auto|].
  destruct (stop_needed n (y_extent r) (extent r)) as (N2 & R2); [lra|auto|].
  exists (stop_index n (pixels n (x_extent r) (extent r))), (stop_index n (pixels n (y_extent r) (extent r))).
  exists (normalise a 2 coords (Some f) (x_extent r * y_extent r) img).
  split; [clear - Ei; clearbody qs; unfold pbox in Ei; destruct periodic; rewrite Ei; reflexivity|].
  split; [exact N1|]. split; [exact N2|].
  intros i j Hi Hj. set (d := extent r / IZR n). cbv zeta. unfold normalise. rewrite convert_factor by lra.
  rewrite Vi by lia. pose proof (factor_pos a coords f 2 Ha) as Fp.
  assert (Pd : 0 < d) by (apply Rdiv_lt_0_compat; lra).
  assert (Q : IZR n * IZR n = extent r * extent r / (d * d)) by (unfold d; field; lra).
  rewrite Eqs. unfold sum_copies2. rewrite map_map. cbn [p_x p_y p_m].
  match goal with |- ?s / _ * _ = _ * ?t => assert (S : s = extent r * extent r * t) end.
  { rewrite <- sumR_scal. apply sumR_ext. intros p Hin. destruct (Hd p Hin) as (CA & CB).
    rewrite (picture2 periodic lx ly (extent r) (r_xmin r) (r_ymin r) 0 (at_x (seen rotation p)) (at_y (seen rotation p)) N (A p) (B p)
      (fun x y => if in_pixelb n i x && in_pixelb n j y then p_m p * (IZR n * IZR n) else 0)
      (fun x y => extent r * extent r * counted d p x y (r_xmin r + IZR i * d) (r_ymin r + IZR j * d))); auto.
    - unfold over2. rewrite <- sumR_scal. apply sumR_ext. intros k _. rewrite <- sumR_scal. reflexivity.
    - intro E. destruct (Hp E) as (_ & H1 & H2). repeat split; auto; lra.
    - intros u v. rewrite !within_pixel by auto. fold d. unfold counted. rewrite Q.
      destruct (within_b _ _ u && within_b _ _ v); [field; lra|ring].
    - intros u v Hne. unfold counted in Hne.
      destruct (within_b _ _ u && within_b _ _ v) eqn:W; [|exfalso; apply Hne; ring].
      apply andb_true_iff in W. destruct W as (W1 & W2). apply within_reach in W1. apply within_reach in W2.
      pose proof (pixel_bounds n (extent r) i HM Hn ltac:(lia)) as P1.
      pose proof (pixel_bounds n (extent r) j HM Hn ltac:(lia)) as P2. fold d in P1, P2. lra. }
  rewrite S. set (F := length_factor a coords f ^ 2) in *. clearbody F. field. repeat split; lra.
Qed.

(** * C62: slices *)

Definition cuttable (periodic : bool) (lx ly lz : R) (r : region) (t : R) (A B C : part -> list Z) (c : part -> vec) (p : part) : Prop :=
  0 < p_h p /\ (periodic = true -> width3 p <= lx /\ width3 p <= ly /\ width3 p <= lz) /\
  covers periodic lx (r_xmin r) (r_xmin r + extent r) (width3 p) (at_x (c p)) (A p) /\
  covers periodic ly (r_ymin r) (r_ymin r + extent r) (width3 p) (at_y (c p)) (B p) /\
  covers periodic lz t t (width3 p) (at_z (c p)) (C p).

Lemma normed_slice_put : forall periodic lx ly lz r z0 z1 xr yr zr has rotation p,
  normed_slice periodic (mkinfo (r_xmin r) (r_ymin r) z0 z1 xr yr zr (extent r) has
     (if periodic then (lx / extent r, ly / extent r, lz / extent r) else (0, 0, 0)))
    (put periodic (lx, ly, lz) rotation p)
  = mkpart (ncoord periodic lx (extent r) (r_xmin r) (at_x (seen rotation p)))
           (ncoord periodic ly (extent r) (r_ymin r) (at_y (seen rotation p)))
           (rem_if periodic (coord periodic lz (at_z (seen rotation p)) / extent r) (pbox periodic lz (extent r)))
           (p_m p) (p_h p / extent r).
Proof.
  intros. unfold normed_slice, put. destruct (seen rotation p) as ((x & y) & z). destruct periodic; reflexivity.
Qed.

Lemma pixels_slice_same : forall n range M, pixels_slice n range M = pixels n range M.
Proof. intros. unfold pixels_slice, pixels. f_equal. unfold Rdiv. ring. Qed.

Lemma stop_pixels : forall n range M, 0 < range <= M -> (1 <= n)%Z -> stop_index n (pixels n range M) = pixels n range M.
Proof.
  intros n range M Hr Hn. destruct (stop_needed n range M Hr Hn) as (_ & K). revert K. unfold stop_index.
  pose proof (n_pos n Hn). unfold pixels. pose proof (ceil_spec (IZR n * (range / M))) as C.
  set (k := ceil _) in *. clearbody k.
  assert (0 < range / M) by (apply Rdiv_lt_0_compat; lra).
  assert (range / M <= 1). { apply (Rmult_le_reg_r M); [lra|]. unfold Rdiv. rewrite Rmult_assoc, Rinv_l; lra. }
  assert (0 < k)%Z by (apply lt_IZR; nra). assert (k < n + 1)%Z by (apply lt_IZR; rewrite plus_IZR; nra).
  destruct (Z.ltb_spec k 0); [lia|]. intros _. lia.
Qed.

(** One of the extents is the larger one, so the square image has [n] by [n] pixels. *)
Lemma pixels_max : forall n r, (1 <= n)%Z -> 0 < x_extent r -> 0 < y_extent r ->
  Z.max (pixels n (x_extent r) (extent r)) (pixels n (y_extent r) (extent r)) = n.
Proof.
  intros n r Hn Hx Hy. assert (HM : 0 < extent r) by (apply extent_pos; auto).
  assert (Mx : x_extent r <= extent r) by apply Rmax_l. assert (My : y_extent r <= extent r) by apply Rmax_r.
  assert (F : pixels n (extent r) (extent r) = n).
  { unfold pixels. replace (IZR n * (extent r / extent r)) with (IZR n) by (field; lra). apply ceil_unique. lra. }
  pose proof (stop_needed n (x_extent r) (extent r) ltac:(lra) Hn) as (_ & K1).
  pose proof (stop_needed n (y_extent r) (extent r) ltac:(lra) Hn) as (_ & K2).
  rewrite stop_pixels in K1, K2 by (auto; lra).
  assert (x_extent r = extent r \/ y_extent r = extent r) as [E|E].
  { unfold extent. destruct (Rle_dec (x_extent r) (y_extent r)); [right; rewrite Rmax_right|left; rewrite Rmax_left]; lra. }
  - rewrite E, F in *. lia.
  - rewrite E, F in *. lia.
Qed.

(** The density at the centre of pixel (i, j) of the slice at [z_slice] (from the centre of
    rotation): the kernel sum, apart from the row that the backend leaves out (C41). *)
Theorem C62_slice : forall a coords f n z_slice periodic lx ly lz r rotation ps A B C,
  let t := match z_slice with Some z => z | None => 0 end
           + match rotation with Some (_, c) => at_z c | None => 0 end in
  0 < a -> (1 <= n)%Z -> 0 < x_extent r -> 0 < y_extent r ->
  (periodic = true -> rotation = None /\ 0 < lx /\ 0 < ly /\ 0 < lz) ->
  (forall p, In p ps -> cuttable periodic lx ly lz r t A B C (seen rotation) p) ->
  exists rows cols img,
    drawn (slice_grid slice_scatter a coords (Some f) n z_slice periodic (lx, ly, lz) (Some r) rotation None ps)
    = Ok (mkpicture [rows; cols] img) /\
    needed (x_extent r) (extent r / IZR n) rows /\ needed (y_extent r) (extent r / IZR n) cols /\
    forall i j, (0 <= i < rows)%Z -> (0 <= j < cols)%Z ->
      let d := extent r / IZR n in
      img [i; j] * length_factor a coords f ^ 3
      = sumR (map (fun p => over3 (A p) (B p) (C p) (fun a b c =>
          share_slice d t p (at_x (seen rotation p) + a * lx) (at_y (seen rotation p) + b * ly)
            (at_z (seen rotation p) + c * lz) (r_xmin r + IZR i * d) (r_ymin r + IZR j * d))) ps).
Proof.
  intros a coords f n z_slice periodic lx ly lz r rotation ps A B C t Ha Hn Hx Hy Hp Hd.
  pose proof (extent_pos r Hx) as HM. pose proof (n_pos n Hn) as Np.
  assert (Mx : x_extent r <= extent r) by apply Rmax_l. assert (My : y_extent r <= extent r) by apply Rmax_r.
  assert (Et : match z_slice with Some z => z | None => 0 end
               + match rotation with Some (_, (_, _, c)) => c | None => 0 end = t).
  { unfold t. destruct rotation as [(m & ((u & v) & w))|]; reflexivity. }
  unfold slice_grid, region_info.
  replace (match r_z r with
    | Some (z0, z1) => (r_xmin r, r_xmax r, r_ymin r, r_ymax r, z0, z1, true)
    | None => (r_xmin r, r_xmax r, r_ymin r, r_ymax r, 0, lz, false) end)
    with (r_xmin r, r_xmax r, r_ymin r, r_ymax r,
          match r_z r with Some (z0, _) => z0 | None => 0 end,
          match r_z r with Some (_, z1) => z1 | None => lz end,
          match r_z r with Some _ => true | None => false end) by (destruct (r_z r) as [(z0 & z1)|]; reflexivity).
  cbn [andb bind]. rewrite placed_put by (intro E; apply (Hp E)). cbn [bind pick i_box].
  fold (x_extent r) (y_extent r) (extent r). unfold drawn.
  set (inf := mkinfo _ _ _ _ _ _ _ _ _ _). cbn [bind]. rewrite Et.
  set (qs := map (normed_slice periodic inf) _).
  set (nq := fun p => mkpart (ncoord periodic lx (extent r) (r_xmin r) (at_x (seen rotation p)))
           (ncoord periodic ly (extent r) (r_ymin r) (at_y (seen rotation p)))
           (rem_if periodic (coord periodic lz (at_z (seen rotation p)) / extent r) (pbox periodic lz (extent r)))
           (p_m p) (p_h p / extent r)).
  assert (Eqs : qs = map nq ps).
  { unfold qs. rewrite map_map. apply map_ext. intro p. apply normed_slice_put. }
  assert (Bx : 0 <= pbox periodic lx (extent r)) by (apply pbox_nonneg; auto; intro E; apply (Hp E)).
  assert (By : 0 <= pbox periodic ly (extent r)) by (apply pbox_nonneg; auto; intro E; apply (Hp E)).
  assert (Bz : 0 <= pbox periodic lz (extent r)) by (apply pbox_nonneg; auto; intro E; apply (Hp E)).
  destruct (enough_exists (pbox periodic lx (extent r)) (pbox periodic ly (extent r)) (pbox periodic lz (extent r)))
    as (N & Ex & Ey & Ez); auto.
  pose proof (pixels_max n r Hn Hx Hy) as Pm.
  set (tn := rem_if periodic (t / extent r) (pbox periodic lz (extent r))).
  assert (Ht : pbox periodic lz (extent r) = 0 \/ (0 <= tn /\ (tn <= 1 \/ tn < pbox periodic lz (extent r)))).
  { unfold tn, pbox, rem_if. destruct periodic; [right|left; reflexivity].
    destruct (rmod_range (t / extent r) (lz / extent r)); [apply Rdiv_lt_0_compat; auto; apply (Hp eq_refl)|]. auto. }
  destruct (C41_slice_pixels (pixels n (x_extent r) (extent r)) (pixels n (y_extent r) (extent r)) tn
     (pbox periodic lx (extent r)) (pbox periodic ly (extent r)) (pbox periodic lz (extent r)) qs N) as (img & Ei & Vi);
    rewrite ?Pm in *; auto.
  { intros q Hq. rewrite Eqs in Hq. apply in_map_iff in Hq. destruct Hq as (p & <- & Hin).
    destruct (Hd p Hin) as (Hh & Hw & _ & _ & _). unfold nq, settled3. rewrite width3_scale by auto. cbn [p_x p_y p_z p_h].
    split; [|apply Rdiv_lt_0_compat; auto].
    split; [apply Rlt_le, Rdiv_lt_0_compat; auto|].
    split; [apply coord_wrapped; auto; intro E; apply (Hp E)|].
    split; [apply coord_wrapped; auto; intro E; apply (Hp E)|].
    split. { replace (coord periodic lz (at_z (seen rotation p)) / extent r)
               with ((coord periodic lz (at_z (seen rotation p)) - 0) / extent r) by (f_equal; ring).
             apply coord_wrapped; auto; intro E; apply (Hp E). }
    split; [apply pbox_fits; auto; intro E; apply (Hw E)|].
    split; apply pbox_fits; auto; intro E; apply (Hw E). }
  destruct (stop_needed n (x_extent r) (extent r)) as (N1 & R1); [lra|auto|].
  destruct (stop_needed n (y_extent r) (extent r)) as (N2 & R2); [lra|auto|].
  rewrite stop_pixels in N1, R1 by (auto; lra). rewrite stop_pixels in N2, R2 by (auto; lra).
  exists (pixels n (x_extent r) (extent r)), (pixels n (y_extent r) (extent r)).
  exists (normalise a 3 coords (Some f) (extent r ^ 3) img).
  split. { clear - Ei. clearbody qs. rewrite !pixels_slice_same. unfold tn, pbox in Ei. destruct periodic; unfold rem_if in *;
           cbn [i_box inf i_xrange i_yrange i_max]; rewrite Ei; reflexivity. }
  split; [exact N1|]. split; [exact N2|].
  intros i j Hi Hj. set (d := extent r / IZR n). cbv zeta. unfold normalise. rewrite convert_factor by lra.
  rewrite Vi by lia. pose proof (factor_pos a coords f 3 Ha) as Fp.
  rewrite Eqs. unfold sum_copies3. rewrite map_map.
  match goal with |- ?s / _ * _ = ?u => assert (S : s = extent r ^ 3 * u) end.
  { rewrite <- sumR_scal. apply sumR_ext. intros p Hin. destruct (Hd p Hin) as (Hh & Hw & CA & CB & CC).
    eapply eq_trans; [apply (picture_slice periodic lx ly lz (extent r) (r_xmin r) (r_ymin r) (width3 p)
      (at_x (seen rotation p)) (at_y (seen rotation p)) (at_z (seen rotation p)) t N (A p) (B p) (C p)
      (fun x y z h => if above n (width3 (nq p)) x i || above n (width3 (nq p)) y j then 0
                      else p_m (nq p) * W3 (dist3 (centre n i) (centre n j) h x y z) (width3 (nq p)))
      (fun x y z h => extent r * extent r * extent r * share_slice d h p x y z (r_xmin r + IZR i * d) (r_ymin r + IZR j * d))); auto|].
    - intro E. destruct (Hp E) as (_ & H1 & H2 & H3). destruct (Hw E) as (W1 & W2 & W3). repeat split; auto.
    - intros u v s h. apply slice_scale; auto.
    - intros u v s h g. unfold share_slice.
      rewrite <- (dist3_shift _ _ h u v s 0 0 g), !Rplus_0_r. reflexivity.
    - intros u v s h Hne. apply (share_slice_reach n (extent r) (r_xmin r) (r_ymin r) h p u v s i j); auto; try lra; try lia.
      intro E. apply Hne. fold d in E. rewrite E. ring.
    - unfold over3. rewrite <- sumR_scal. apply sumR_ext. intros k _. rewrite <- sumR_scal. apply sumR_ext. intros l _.
      rewrite <- sumR_scal. apply sumR_ext. intros m _. ring. }
  rewrite S. set (F := length_factor a coords f ^ 3) in *. clearbody F.
  set (M3 := extent r ^ 3). assert (0 < M3) by (apply pow_lt; auto). clearbody M3. field. split; lra.
Qed.

(** * C63: volumes *)

Definition voxelable (periodic : bool) (lx ly lz : R) (lo : vec) (M : R) (A B C : part -> list Z) (c : part -> vec) (p : part) : Prop :=
  0 <= p_h p /\ (periodic = true -> width3 p <= lx /\ width3 p <= ly /\ width3 p <= lz) /\
  covers periodic lx (at_x lo) (at_x lo + M) (width3 p) (at_x (c p)) (A p) /\
  covers periodic ly (at_y lo) (at_y lo + M) (width3 p) (at_y (c p)) (B p) /\
  covers periodic lz (at_z lo) (at_z lo + M) (width3 p) (at_z (c p)) (C p).

Lemma voxel_scale : forall n M lo lo' lo'' p x y z i j k, 0 < M -> (1 <= n)%Z -> 0 <= p_h p ->
  forall px py pz,
  deposit3 n (mkpart px py pz (p_m p) (p_h p / M)) ((x - lo) / M) ((y - lo') / M) ((z - lo'') / M) i j k
  = M * M * M * share_voxel (M / IZR n) p x y z (lo + IZR i * (M / IZR n)) (lo' + IZR j * (M / IZR n)) (lo'' + IZR k * (M / IZR n)).
Proof.
  intros n M lo lo' lo'' p x y z i j k HM Hn Hh px py pz. pose proof (n_pos n Hn) as Np.
  unfold deposit3, share_voxel. rewrite width3_scale by auto. rewrite !within_pixel, !upper_phys by auto. cbn [p_m].
  assert (Ew' : width3 p / M * IZR n * (M / IZR n) = width3 p) by (field; lra).
  assert (P : 0 < M / IZR n) by (apply Rdiv_lt_0_compat; lra).
  destruct (Rlt_dec (width3 p / M * IZR n) (/ 2)) as [K|K], (Rlt_dec (width3 p) (M / IZR n / 2)) as [L|L].
  - destruct (within_b _ _ x && within_b _ _ y && within_b _ _ z); [field; lra|ring].
  - exfalso. apply L. apply (Rmult_lt_compat_r (M / IZR n)) in K; lra.
  - exfalso. apply K. apply (Rmult_lt_reg_r (M / IZR n)); lra.
  - destruct (upper _ _ _ x || upper _ _ _ y || upper _ _ _ z); [ring|].
    rewrite (centre_phys n M lo i), (centre_phys n M lo' j), (centre_phys n M lo'' k) by auto.
    rewrite dist3_scale by auto. rewrite W3_scale by lra. unfold Rminus. rewrite dist3_shift. ring.
Qed.

Lemma isclose_refl : forall x, isclose x x = true.
Proof.
  intro x. unfold isclose. destruct (Rle_dec _ _) as [H|H]; auto. exfalso. apply H.
  rewrite Rminus_diag_eq, Rabs_R0 by reflexivity. pose proof (Rabs_pos x). lra.
Qed.

(** The voxels of a cubic region of side [M]. *)
Theorem C63_volume : forall a coords f n periodic lx ly lz x0 y0 z0 M rotation ps A B C,
  0 < a -> (1 <= n)%Z -> 0 < M ->
  (periodic = true -> rotation = None /\ 0 < lx /\ 0 < ly /\ 0 < lz) ->
  (forall p, In p ps -> voxelable periodic lx ly lz (x0, y0, z0) M A B C (seen rotation) p) ->
  exists img,
    drawn (voxel_grid volume a coords (Some f) n periodic (lx, ly, lz)
             (Some (mkregion x0 (x0 + M) y0 (y0 + M) (Some (z0, z0 + M)))) rotation None ps)
    = Ok (mkpicture [n; n; n] img) /\
    forall i j k, (0 <= i < n)%Z -> (0 <= j < n)%Z -> (0 <= k < n)%Z ->
      let d := M / IZR n in
      img [i; j; k] * length_factor a coords f ^ 3
      = sumR (map (fun p => over3 (A p) (B p) (C p) (fun a b c =>
          share_voxel d p (at_x (seen rotation p) + a * lx) (at_y (seen rotation p) + b * ly)
            (at_z (seen rotation p) + c * lz) (x0 + IZR i * d) (y0 + IZR j * d) (z0 + IZR k * d))) ps).
Proof.
  intros a coords f n periodic lx ly lz x0 y0 z0 M rotation ps A B C Ha Hn HM Hp Hd.
  pose proof (n_pos n Hn) as Np.
  unfold voxel_grid, region_info. cbn [r_xmin r_xmax r_ymin r_ymax r_z].
  replace (x0 + M - x0) with M by ring. replace (y0 + M - y0) with M by ring. replace (z0 + M - z0) with M by ring.
  rewrite isclose_refl, Rmax_left by lra. cbn [andb negb bind].
  rewrite placed_put by (intro E; apply (Hp E)). cbn [bind pick i_box]. unfold drawn.
  set (inf := mkinfo _ _ _ _ _ _ _ _ _ _). cbn [bind].
  set (qs := map (normed3 periodic inf) _).
  set (nq := fun p => mkpart (ncoord periodic lx M x0 (at_x (seen rotation p))) (ncoord periodic ly M y0 (at_y (seen rotation p)))
           (ncoord periodic lz M z0 (at_z (seen rotation p))) (p_m p) (p_h p / M)).
  assert (Eqs : qs = map nq ps).
  { unfold qs. rewrite map_map. apply map_ext. intro p. unfold nq, normed3, put, inf.
    destruct (seen rotation p) as ((x & y) & z). destruct periodic; reflexivity. }
  assert (Bx : 0 <= pbox periodic lx M) by (apply pbox_nonneg; auto; intro E; apply (Hp E)).
  assert (By : 0 <= pbox periodic ly M) by (apply pbox_nonneg; auto; intro E; apply (Hp E)).
  assert (Bz : 0 <= pbox periodic lz M) by (apply pbox_nonneg; auto; intro E; apply (Hp E)).
  destruct (enough_exists (pbox periodic lx M) (pbox periodic ly M) (pbox periodic lz M)) as (N & Ex & Ey & Ez); auto.
  destruct (C41_volume_voxels n (pbox periodic lx M) (pbox periodic ly M) (pbox periodic lz M) qs N) as (img & Ei & Vi); auto.
  { intros q Hq. rewrite Eqs in Hq. apply in_map_iff in Hq. destruct Hq as (p & <- & Hin).
    destruct (Hd p Hin) as (Hh & Hw & _ & _ & _). unfold nq, settled3. rewrite width3_scale by auto. cbn [p_x p_y p_z p_h].
    split; [apply Rmult_le_pos; auto; apply Rlt_le, Rinv_0_lt_compat; auto|].
    split; [apply coord_wrapped; auto; intro E; apply (Hp E)|].
    split; [apply coord_wrapped; auto; intro E; apply (Hp E)|].
    split; [apply coord_wrapped; auto; intro E; apply (Hp E)|].
    split; [apply pbox_fits; auto; intro E; apply (Hw E)|].
    split; apply pbox_fits; auto; intro E; apply (Hw E). }
  exists (normalise a 3 coords (Some f) (M * M * M) img).
  split. { clear - Ei. clearbody qs. unfold pbox in Ei. destruct periodic; cbn [i_box inf i_xrange i_yrange i_zrange]; rewrite Ei; reflexivity. }
  intros i j k Hi Hj Hk. set (d := M / IZR n). cbv zeta. unfold normalise. rewrite convert_factor by lra.
  rewrite Vi by lia. pose proof (factor_pos a coords f 3 Ha) as Fp.
  rewrite Eqs. unfold sum_copies3. rewrite map_map.
  match goal with |- ?s / _ * _ = ?u => assert (S : s = M * M * M * u) end.
  { rewrite <- sumR_scal. apply sumR_ext. intros p Hin. destruct (Hd p Hin) as (Hh & Hw & CA & CB & CC).
    eapply eq_trans; [apply (picture3 periodic lx ly lz M x0 y0 z0 (width3 p)
      (at_x (seen rotation p)) (at_y (seen rotation p)) (at_z (seen rotation p)) N (A p) (B p) (C p)
      (fun x y z => deposit3 n (nq p) x y z i j k)
      (fun x y z => M * M * M * share_voxel d p x y z (x0 + IZR i * d) (y0 + IZR j * d) (z0 + IZR k * d))); auto|].
    - intro E. destruct (Hp E) as (_ & H1 & H2 & H3). destruct (Hw E) as (W1 & W2 & W3). repeat split; auto.
    - intros u v s. apply voxel_scale; auto.
    - intros u v s Hne. apply (voxel_reach n M x0 y0 z0 p u v s i j k); auto; try lra; try lia.
      intro E. apply Hne. fold d in E. rewrite E. ring.
    - unfold over3. rewrite <- sumR_scal. apply sumR_ext. intros k' _. rewrite <- sumR_scal. apply sumR_ext. intros l _.
      rewrite <- sumR_scal. apply sumR_ext. intros m _. ring. }
  rewrite S. set (F := length_factor a coords f ^ 3) in *. clearbody F. field. split; lra.
Qed.

(** Regions that are far from cubic are refused, but only if they are not tiny: the
    tolerance is absolute. *)
Theorem C63_not_cubic : forall backend a coords frame n periodic box x0 x1 y0 y1 z rotation mask ps,
  2 * (1 / 100000000) <= x1 - x0 -> 2 * (x1 - x0) <= y1 - y0 ->
  voxel_grid backend a coords frame n periodic box (Some (mkregion x0 x1 y0 y1 z)) rotation mask ps = Err AttributeError.
Proof.
  intros backend a coords frame n periodic ((lx & ly) & lz) x0 x1 y0 y1 z rotation mask ps H1 H2.
  unfold voxel_grid, region_info. cbn [r_xmin r_xmax r_ymin r_ymax r_z].
  assert (I : isclose (x1 - x0) (y1 - y0) = false).
  { unfold isclose. destruct (Rle_dec _ _) as [L|L]; auto. exfalso.
    rewrite Rabs_left in L by lra. rewrite (Rabs_right (y1 - y0)) in L by lra. lra. }
  destruct z as [(z0 & z1)|]; rewrite I; reflexivity.
Qed.

Theorem C63_tiny_not_cubic_refuted : forall n ps, exists x1 y1 z1, 0 < x1 /\ y1 = 2 * x1 /\ z1 = 3 * x1 /\
  exists out, voxel_grid volume 1 true (Some true) n false (1, 1, 1)
    (Some (mkregion 0 x1 0 y1 (Some (0, z1)))) None None ps = Ok out.
Proof.
  intros n ps. exists (1 / 1000000000), (2 / 1000000000), (3 / 1000000000).
  split; [lra|]. split; [lra|]. split; [lra|].
  unfold voxel_grid, region_info. cbn [r_xmin r_xmax r_ymin r_ymax r_z].
  assert (I : forall u v, 0 < u < v -> v < 1 / 100000000 -> isclose (u - 0) (v - 0) = true).
  { intros u v H1 H2. unfold isclose. destruct (Rle_dec _ _) as [L|L]; auto. exfalso. apply L.
    rewrite Rabs_left, (Rabs_right (v - 0)) by lra. lra. }
  rewrite !I by lra. cbn [andb negb bind placed pick i_box].
  set (qs := map _ ps). destruct (render_spec _ _ (volume_ok n 0 0 0 qs)) as (img & E & _).
  unfold volume. rewrite E. cbn [bind]. eexists. reflexivity.
Qed.

(** A case: a box of 10, a region across its edge, a particle near the other edge whose copy
    one box below is drawn. *)
Lemma one_copy : forall k l : Z, IZR k - 1 < IZR l < IZR k + 1 -> In l [k].
Proof. intros. left. symmetry. apply IZR_bounds. assumption. Qed.

Definition case_region : region := mkregion (-1) 1 3 4 None.
Definition case_part : part := mkpart (95 / 10) (35 / 10) 2 5 (1 / 2).
Example C43_case : 0 < x_extent case_region /\ 0 < y_extent case_region /\
  drawable true 10 10 case_region (fun _ => [-1]%Z) (fun _ => [0]%Z) (seen None) case_part /\
  cuttable true 10 10 10 case_region (-7) (fun _ => [-1]%Z) (fun _ => [0]%Z) (fun _ => [-1]%Z) (seen None) case_part /\
  voxelable true 10 10 10 (-1, 3, -8) 2 (fun _ => [-1]%Z) (fun _ => [0]%Z) (fun _ => [-1]%Z) (seen None) case_part.
Proof.
  assert (E : extent case_region = 2).
  { unfold extent, x_extent, y_extent, case_region. cbn [r_xmin r_xmax r_ymin r_ymax]. rewrite Rmax_left; lra. }
  assert (ND : forall k : Z, NoDup [k]) by (intro; repeat constructor; auto).
  unfold drawable, cuttable, voxelable, covers. rewrite E. unfold width2, width3, x_extent, y_extent, case_part, case_region, seen, position, at_x, at_y, at_z.
  cbn [p_x p_y p_z p_h r_xmin r_xmax r_ymin r_ymax fst snd].
  split; [lra|]. split; [lra|]. split; [|split].
  - split; [lra|]. split; [lra|]. split; (split; [apply ND|]; intros k Hk; apply one_copy; lra).
  - split; [lra|]. split; [lra|]. split; [|split]; (split; [apply ND|]; intros k Hk; apply one_copy; lra).
  - split; [lra|]. split; [lra|]. split; [|split]; (split; [apply ND|]; intros k Hk; apply one_copy; lra).
Qed.

Print Assumptions C42_periodic.
Print Assumptions C42_backwards.
Print Assumptions C42_empty_range_refuted.
Print Assumptions C42_not_periodic.
Print Assumptions C42_too_deep.
Print Assumptions C42_wanted.
Print Assumptions C42_mask.
Print Assumptions C42_mask_length.
Print Assumptions C62_mask_length.
Print Assumptions C63_mask_length.
Print Assumptions C43_trimmed.
Print Assumptions C43_pixels.
Print Assumptions C43_total.
Print Assumptions C43_not_square_refuted.
Print Assumptions C43_no_frame.
Print Assumptions C43_no_region.
Print Assumptions C43_stored.
Print Assumptions C43_histogram.
Print Assumptions C62_slice.
Print Assumptions C63_volume.
Print Assumptions C63_not_cubic.
Print Assumptions C63_tiny_not_cubic_refuted.

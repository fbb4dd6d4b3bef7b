(** C124: nearest-neighbour slices in the coordinates of the dataset. *)
From Coq Require Import List ZArith Reals Bool Lia Lra Psatz.
From Verif Require Import Base BaseLemmas VisModel VisSpec VisSumProofs VisProofs RotModel HsmlModel HsmlProofs HsmlTheorems
  FrontModel FrontSpec FrontProofs FrontTheorems NearModel NearSpec.
Import ListNotations.
Open Scope R_scope.

(** * The backend with and without a box *)
Lemma nearest_both : forall (periodic : bool) xres yres zs box ps,
  (if periodic then positive box else box = (0, 0, 0)) -> ps <> [] ->
  exists img, nearest_slice xres yres zs box ps = Ok img
    /\ forall i j, exists p, In p ps /\ img [i; j] = p_m p / (p_h p) ^ 3
         /\ exists a b c, counted periodic a b c /\ forall q a' b' c', In q ps -> counted periodic a' b' c' ->
              separation (pixel_centre xres yres zs i j) (image_of box (FrontModel.position p) a b c)
              <= separation (pixel_centre xres yres zs i j) (image_of box (FrontModel.position q) a' b' c').
Proof.
  intros periodic xres yres zs box ps Hb Hne. destruct periodic.
  - destruct (C59_nearest xres yres zs box ps Hb Hne) as (img & E & V). exists img. split; [exact E|].
    intros i j. destruct (V i j) as (p & Hp & Ep & a & b & c & M). exists p. split; [exact Hp|]. split; [exact Ep|].
    exists a, b, c. split; [left; reflexivity|]. intros q a' b' c' Hq _. exact (M q Hq a' b' c').
  - subst box. destruct (C59_not_periodic xres yres zs ps Hne) as (img & E & V). exists img. split; [exact E|].
    intros i j. destruct (V i j) as (p & Hp & Ep & M). exists p. split; [exact Hp|]. split; [exact Ep|].
    assert (Z0 : forall v, image_of (0, 0, 0) v 0 0 0 = v).
    { intros ((x & y) & z). unfold image_of. rewrite !Rmult_0_r, !Rplus_0_r. reflexivity. }
    exists 0%Z, 0%Z, 0%Z. split; [right; auto|]. intros q a' b' c' Hq [F|(-> & -> & ->)]; [discriminate|].
    rewrite !Z0. exact (M q Hq).
Qed.

Lemma separation_dist3 : forall x y z u v w, separation (x, y, z) (u, v, w) = dist3 x y z u v w.
Proof. reflexivity. Qed.

(** * One axis *)
Lemma axis : forall (periodic : bool) L M lo x, 0 < M -> (periodic = true -> 0 < L) -> exists k, (periodic = false -> k = 0%Z) /\
  forall a, (periodic = false -> a = 0%Z) ->
  ncoord periodic L M lo x + IZR a * pbox periodic L M = (x + IZR (a + k) * L - lo) / M.
Proof.
  intros periodic L M lo x HM HL. destruct periodic.
  - destruct (normed_axis L M lo x HM (HL eq_refl)) as (k & _ & _ & E). exists k. split; [discriminate|]. intros a _. exact (E a).
  - exists 0%Z. split; [reflexivity|]. intros a Ha. rewrite (Ha eq_refl). cbn. unfold ncoord, rem_if, coord. field. lra.
Qed.

Lemma height : forall (periodic : bool) L M t, 0 < M -> (periodic = true -> 0 < L) -> exists k, (periodic = false -> k = 0%Z) /\
  rem_if periodic (t / M) (pbox periodic L M) = (t + IZR k * L) / M.
Proof.
  intros periodic L M t HM HL. destruct periodic; unfold rem_if, pbox.
  - destruct (rmod_image (t / M) (L / M)) as (k & E). exists k. split; [discriminate|]. rewrite E. field. lra.
  - exists 0%Z. split; [reflexivity|]. field. lra.
Qed.

(** The distances that the backend compares are those in the dataset, over the extent. *)
Lemma compared : forall (periodic : bool) lx ly lz M n lo lo' t i j x y z,
  0 < M -> (1 <= n)%Z -> (periodic = true -> 0 < lx /\ 0 < ly /\ 0 < lz) ->
  let d := M / IZR n in
  exists kx ky kz, counted periodic kx ky kz /\ forall a b c, counted periodic a b c ->
    separation ((IZR i + / 2) / IZR n, (IZR j + / 2) / IZR n, rem_if periodic (t / M) (pbox periodic lz M))
      (image_of (pbox periodic lx M, pbox periodic ly M, pbox periodic lz M)
         (ncoord periodic lx M lo x, ncoord periodic ly M lo' y, rem_if periodic (coord periodic lz z / M) (pbox periodic lz M)) a b c)
    = dist3 (lo + (IZR i + / 2) * d) (lo' + (IZR j + / 2) * d) t
        (x + IZR (a + kx) * lx) (y + IZR (b + ky) * ly) (z + IZR (c + kz) * lz) / M.
Proof.
  intros periodic lx ly lz M n lo lo' t i j x y z HM Hn Hp d. pose proof (n_pos n Hn) as Np.
  destruct (axis periodic lx M lo x HM) as (kx & Kx & Ex); [intro E; apply (Hp E)|].
  destruct (axis periodic ly M lo' y HM) as (ky & Ky & Ey); [intro E; apply (Hp E)|].
  destruct (axis periodic lz M 0 z HM) as (k1 & K1 & Ez); [intro E; apply (Hp E)|].
  destruct (height periodic lz M t HM) as (kt & Kt & Et); [intro E; apply (Hp E)|].
  exists kx, ky, (k1 - kt)%Z. split.
  { destruct periodic; [left; reflexivity|right]. rewrite Kx, Ky, K1, Kt by reflexivity. auto. }
  intros a b c Hc. assert (C0 : periodic = false -> a = 0%Z /\ b = 0%Z /\ c = 0%Z).
  { intro F. destruct Hc as [T|H]; [congruence|exact H]. }
  assert (Nz : rem_if periodic (coord periodic lz z / M) (pbox periodic lz M) = ncoord periodic lz M 0 z).
  { unfold ncoord. f_equal. f_equal. ring. }
  rewrite Nz. unfold image_of. rewrite Ex, Ey, Ez, Et by (intro F; apply (C0 F)). rewrite separation_dist3.
  rewrite <- dist3_scale by exact HM. unfold dist3. f_equal. unfold d. rewrite !plus_IZR, minus_IZR. field. lra.
Qed.

Lemma kept_pick : forall A (f : part -> A) bs ps l, kept bs ps l -> pick (Some bs) (map f ps) = Ok (map f l).
Proof.
  intros A f bs ps l H. unfold pick.
  assert (zlen bs = zlen (map f ps) /\ map snd (filter fst (combine bs (map f ps))) = map f l) as (E1 & E2).
  { unfold zlen. rewrite map_length. induction H as [|p bs ps l H (I1 & I2)|p bs ps l H (I1 & I2)]; cbn; [auto| |];
    (split; [lia|]); [f_equal|]; exact I2. }
  rewrite E1, Z.eqb_refl, E2. reflexivity.
Qed.
Lemma chosen_pick : forall A (f : part -> A) mask ps l, chosen mask ps l -> pick mask (map f ps) = Ok (map f l).
Proof. intros A f [bs|] ps l H; [apply kept_pick, H|]. cbn in H. subst. reflexivity. Qed.

(** * The statements *)

(** Pixel (i, j) of the slice holds mass over cubed size of a particle that is nearest to the
    pixel's centre, at the height of the slice, among all the copies of the particles. *)
Theorem C124_slice : forall a coords f n z_slice periodic lx ly lz r rotation mask ps l,
  let t := match z_slice with Some z => z | None => 0 end
           + match rotation with Some (_, c) => at_z c | None => 0 end in
  0 < a -> (1 <= n)%Z -> 0 < x_extent r -> 0 < y_extent r ->
  (periodic = true -> rotation = None /\ 0 < lx /\ 0 < ly /\ 0 < lz) ->
  chosen mask ps l -> l <> [] -> (forall p, In p l -> p_h p <> 0) ->
  exists rows cols img,
    drawn (near_slice a coords (Some f) n z_slice periodic (lx, ly, lz) (Some r) rotation mask ps)
    = Ok (mkpicture [rows; cols] img) /\
    needed (x_extent r) (extent r / IZR n) rows /\ needed (y_extent r) (extent r / IZR n) cols /\
    forall i j, (0 <= i < rows)%Z -> (0 <= j < cols)%Z ->
      let d := extent r / IZR n in
      exists p, nearest_to periodic (lx, ly, lz) rotation (r_xmin r + (IZR i + / 2) * d) (r_ymin r + (IZR j + / 2) * d) t l p /\
        img [i; j] * length_factor a coords f ^ 3 = p_m p / p_h p ^ 3.
Proof.
  intros a coords f n z_slice periodic lx ly lz r rotation mask ps l t Ha Hn Hx Hy Hp Hm Hl Hh.
  pose proof (extent_pos r Hx) as HM. pose proof (n_pos n Hn) as Np.
  assert (Mx : x_extent r <= extent r) by apply Rmax_l. assert (My : y_extent r <= extent r) by apply Rmax_r.
  assert (Et : match z_slice with Some z => z | None => 0 end
               + match rotation with Some (_, (_, _, c)) => c | None => 0 end = t).
  { unfold t. destruct rotation as [(m & ((u & v) & w))|]; reflexivity. }
  unfold near_slice, slice_grid, region_info.
  replace (match r_z r with
    | Some (z0, z1) => (r_xmin r, r_xmax r, r_ymin r, r_ymax r, z0, z1, true)
    | None => (r_xmin r, r_xmax r, r_ymin r, r_ymax r, 0, lz, false) end)
    with (r_xmin r, r_xmax r, r_ymin r, r_ymax r,
          match r_z r with Some (z0, _) => z0 | None => 0 end,
          match r_z r with Some (_, z1) => z1 | None => lz end,
          match r_z r with Some _ => true | None => false end) by (destruct (r_z r) as [(z0 & z1)|]; reflexivity).
  cbn [andb bind]. rewrite placed_put by (intro E; apply (Hp E)). cbn [bind i_box].
  fold (x_extent r) (y_extent r) (extent r). unfold drawn.
  set (inf := mkinfo _ _ _ _ _ _ _ _ _ _). rewrite (chosen_pick _ _ _ _ _ Hm). cbn [bind]. rewrite Et.
  set (qs := map (normed_slice periodic inf) _).
  set (nq := fun p => mkpart (ncoord periodic lx (extent r) (r_xmin r) (at_x (seen rotation p)))
           (ncoord periodic ly (extent r) (r_ymin r) (at_y (seen rotation p)))
           (rem_if periodic (coord periodic lz (at_z (seen rotation p)) / extent r) (pbox periodic lz (extent r)))
           (p_m p) (p_h p / extent r)).
  assert (Eqs : qs = map nq l).
  { unfold qs. rewrite map_map. apply map_ext. intro p. apply normed_slice_put. }
  pose proof (pixels_max n r Hn Hx Hy) as Pm.
  set (tn := rem_if periodic (t / extent r) (pbox periodic lz (extent r))).
  destruct (nearest_both periodic (pixels n (x_extent r) (extent r)) (pixels n (y_extent r) (extent r)) tn
     (pbox periodic lx (extent r), pbox periodic ly (extent r), pbox periodic lz (extent r)) qs) as (img & Ei & Vi).
  { destruct periodic; [|reflexivity]. destruct (Hp eq_refl) as (_ & H1 & H2 & H3). cbn.
    repeat split; apply Rdiv_lt_0_compat; auto. }
  { rewrite Eqs. destruct l; [contradiction|discriminate]. }
  destruct (stop_needed n (x_extent r) (extent r)) as (N1 & R1); [lra|auto|].
  destruct (stop_needed n (y_extent r) (extent r)) as (N2 & R2); [lra|auto|].
  rewrite stop_pixels in N1, R1 by (auto; lra). rewrite stop_pixels in N2, R2 by (auto; lra).
  exists (pixels n (x_extent r) (extent r)), (pixels n (y_extent r) (extent r)).
  exists (normalise a 3 coords (Some f) (extent r ^ 3) img).
  split. { clear - Ei. clearbody qs. rewrite !pixels_slice_same. unfold nearest_backend. unfold tn, pbox in Ei. destruct periodic; unfold rem_if in *;
           cbn [i_box inf i_xrange i_yrange i_max]; rewrite Ei; reflexivity. }
  split; [exact N1|]. split; [exact N2|].
  intros i j Hi Hj. set (d := extent r / IZR n). cbv zeta.
  destruct (Vi i j) as (q & Hq & Eq & qa & qb & qc & Cq & Mq). rewrite Eqs in Hq. apply in_map_iff in Hq.
  destruct Hq as (p & <- & Hin). exists p. unfold pixel_centre in Mq. rewrite Pm in Mq.
  assert (Cmp : forall p', _) by (intro p'; exact (compared periodic lx ly lz (extent r) n (r_xmin r) (r_ymin r) t i j
    (at_x (seen rotation p')) (at_y (seen rotation p')) (at_z (seen rotation p')) HM Hn (fun E => proj2 (Hp E)))).
  cbv zeta in Cmp. fold tn d in Cmp. split.
  - split; [exact Hin|]. destruct (Cmp p) as (kx & ky & kz & Ck & Ep).
    exists (qa + kx)%Z, (qb + ky)%Z, (qc + kz)%Z. split.
    { destruct Ck as [T|(-> & -> & ->)]; [left; exact T|]. destruct Cq as [T|(-> & -> & ->)]; [left; exact T|right; auto]. }
    intros p' a' b' c' Hin' C'. destruct (Cmp p') as (kx' & ky' & kz' & Ck' & Ep').
    assert (C2 : counted periodic (a' - kx') (b' - ky') (c' - kz')).
    { destruct Ck' as [T|(-> & -> & ->)]; [left; exact T|]. destruct C' as [T|(-> & -> & ->)]; [left; exact T|right; auto]. }
    assert (I2 : In (nq p') qs) by (rewrite Eqs; apply in_map; exact Hin').
    specialize (Mq (nq p') (a' - kx')%Z (b' - ky')%Z (c' - kz')%Z I2 C2).
    unfold nq, FrontModel.position in Mq. cbn [p_x p_y p_z] in Mq. rewrite (Ep _ _ _ Cq), (Ep' _ _ _ C2) in Mq.
    replace (a' - kx' + kx')%Z with a' in Mq by lia. replace (b' - ky' + ky')%Z with b' in Mq by lia.
    replace (c' - kz' + kz')%Z with c' in Mq by lia.
    unfold away. apply (Rmult_le_reg_r (/ extent r)); [apply Rinv_0_lt_compat, HM|exact Mq].
  - unfold normalise. rewrite convert_factor by lra. rewrite Eq. unfold nq. cbn [p_m p_h].
    pose proof (factor_pos a coords f 3 Ha) as Fp. pose proof (Hh p Hin) as Nh.
    set (F := length_factor a coords f ^ 3) in *. clearbody F. field. repeat split; lra.
Qed.

(** Without particles there is no nearest one. *)
Theorem C124_none : forall a coords f n z_slice periodic lx ly lz r rotation mask ps,
  (periodic = true -> rotation = None) -> chosen mask ps [] ->
  near_slice a coords f n z_slice periodic (lx, ly, lz) (Some r) rotation mask ps = Err IndexError.
Proof.
  intros a coords f n z_slice periodic lx ly lz r rotation mask ps Hp Hm. unfold near_slice, slice_grid, region_info.
  replace (match r_z r with
    | Some (z0, z1) => (r_xmin r, r_xmax r, r_ymin r, r_ymax r, z0, z1, true)
    | None => (r_xmin r, r_xmax r, r_ymin r, r_ymax r, 0, lz, false) end)
    with (r_xmin r, r_xmax r, r_ymin r, r_ymax r,
          match r_z r with Some (z0, _) => z0 | None => 0 end,
          match r_z r with Some (_, z1) => z1 | None => lz end,
          match r_z r with Some _ => true | None => false end) by (destruct (r_z r) as [(z0 & z1)|]; reflexivity).
  cbn [andb bind]. rewrite placed_put by auto. cbn [bind i_box]. rewrite (chosen_pick _ _ _ _ _ Hm).
  destruct periodic; reflexivity.
Qed.

(** A part of the particles gives the value that all give to a pixel if a nearest one is
    among them and the nearest ones have one value. *)
Theorem C124_part : forall periodic box rotation u v t l l' p p' q,
  nearest_to periodic box rotation u v t l p -> nearest_to periodic box rotation u v t l' p' ->
  incl l' l -> nearest_to periodic box rotation u v t l q -> In q l' ->
  (forall s s', nearest_to periodic box rotation u v t l s -> nearest_to periodic box rotation u v t l s' ->
     p_m s / p_h s ^ 3 = p_m s' / p_h s' ^ 3) ->
  p_m p / p_h p ^ 3 = p_m p' / p_h p' ^ 3.
Proof.
  intros periodic box rotation u v t l l' p p' q Hp Hp' Hi Hq Hin Hs. apply Hs; [exact Hp|].
  destruct Hp' as (I' & a & b & c & Cc & M'). destruct Hq as (_ & qa & qb & qc & Cq & Mq).
  split; [exact (Hi _ I')|]. exists a, b, c. split; [exact Cc|]. intros s sa sb sc Is Cs.
  eapply Rle_trans; [exact (M' q qa qb qc Hin Cq)|exact (Mq s sa sb sc Is Cs)].
Qed.

(** * Concrete cases *)
Definition spot (x y z m : R) : part := mkpart x y z m 1.
Definition window : region := mkregion 0 1 0 1 None.

Lemma window_extent : x_extent window = 1 /\ y_extent window = 1 /\ extent window = 1.
Proof. unfold extent, x_extent, y_extent, window; cbn. rewrite Rminus_0_r, Rmax_left by lra. auto. Qed.

Lemma one_pixel : forall rows, needed 1 (1 / 1) rows -> rows = 1%Z.
Proof.
  intros rows (H1 & H2). assert (rows < 2)%Z by (apply lt_IZR; lra). assert (0 < rows)%Z by (apply lt_IZR; lra). lia.
Qed.

(** A picture of one pixel. *)
Lemma window_picture : forall periodic l ps mask,
  (forall p, In p l -> p_h p <> 0) -> chosen mask ps l -> l <> [] ->
  exists img, drawn (near_slice 1 true (Some true) 1 None periodic (3, 3, 3) (Some window) None mask ps)
              = Ok (mkpicture [1; 1]%Z img) /\
  exists p, nearest_to periodic (3, 3, 3) None (/ 2) (/ 2) 0 l p /\ img [0; 0]%Z = p_m p / p_h p ^ 3.
Proof.
  intros periodic l ps mask Hh Hm Hl. destruct window_extent as (X & Y & M).
  destruct (C124_slice 1 true true 1 None periodic 3 3 3 window None mask ps l) as (rows & cols & img & E & N1 & N2 & V);
    rewrite ?X, ?Y; try lra; try lia; auto.
  { intros _. repeat split; lra. }
  rewrite X, M in N1. rewrite Y, M in N2. apply one_pixel in N1. apply one_pixel in N2. subst.
  exists img. split; [exact E|]. destruct (V 0%Z 0%Z) as (p & Np & Ep); try lia. cbv zeta in *. exists p.
  rewrite M in Np. cbn [window r_xmin r_ymin] in Np.
  replace (0 + (0 + / 2) * (1 / 1)) with (/ 2) in Np by lra. rewrite Rplus_0_r in Np. split; [exact Np|].
  rewrite <- Ep. unfold length_factor. lra.
Qed.

(** Particles outside of the region fill its pixels: leaving them out changes the picture. *)
Theorem C124_outside_refuted : exists ps l, chosen (Some [true; false]) ps l /\
  (forall p, In p ps -> ~ In p l -> ~ (r_xmin window <= p_x p <= r_xmax window)) /\
  exists img img',
    drawn (near_slice 1 true (Some true) 1 None false (3, 3, 3) (Some window) None None ps) = Ok (mkpicture [1; 1]%Z img) /\
    drawn (near_slice 1 true (Some true) 1 None false (3, 3, 3) (Some window) None (Some [true; false]) ps)
      = Ok (mkpicture [1; 1]%Z img') /\
    img [0; 0]%Z = 7 /\ img' [0; 0]%Z = 5.
Proof.
  set (p := spot (/ 2) (/ 2) 2 5). set (q := spot (3 / 2) (/ 2) 0 7).
  assert (K : chosen (Some [true; false]) [p; q] [p]) by (cbn; repeat constructor).
  exists [p; q], [p]. split; [exact K|]. split.
  { intros s [<-|[<-|[]]] Hs; [exfalso; apply Hs; left; reflexivity|]. cbn. lra. }
  destruct (window_picture false [p; q] [p; q] None) as (g & Eg & s & (Hs & a & b & c & C & Mn) & Vs); try discriminate; [| reflexivity |].
  { intros s [<-|[<-|[]]]; cbn; lra. }
  destruct (window_picture false [p] [p; q] (Some [true; false])) as (g' & Eg' & s' & (Hs' & _) & Vs'); try discriminate; [| exact K |].
  { intros s0 [<-|[]]; cbn; lra. }
  exists g, g'. split; [exact Eg|]. split; [exact Eg'|]. split.
  - destruct Hs as [<-|[<-|[]]]; [|rewrite Vs; cbn; lra]. exfalso.
    destruct C as [F|(-> & -> & ->)]; [discriminate|].
    specialize (Mn q 0%Z 0%Z 0%Z ltac:(right; left; reflexivity) ltac:(right; auto)).
    unfold away, dist3, at_x, at_y, at_z, seen, p, q, spot in Mn. cbn in Mn.
    match type of Mn with sqrt ?u <= sqrt ?w => apply sqrt_le_0 in Mn; nra end.
  - destruct Hs' as [<-|[]]. rewrite Vs'. cbn. lra.
Qed.

(** Through the boundary: a copy of the particle at 2.9 of the box of length 3 is nearer. *)
Example wrapped_example : exists img,
  drawn (near_slice 1 true (Some true) 1 None true (3, 3, 3) (Some window) None None
    [spot (3 / 2) (/ 2) (1 / 2) 5; spot (/ 2) (/ 2) (29 / 10) 7]) = Ok (mkpicture [1; 1]%Z img) /\
  img [0; 0]%Z = 7.
Proof.
  set (p := spot (3 / 2) (/ 2) (1 / 2) 5). set (q := spot (/ 2) (/ 2) (29 / 10) 7).
  destruct (window_picture true [p; q] [p; q] None) as (g & Eg & s & (Hs & a & b & c & C & Mn) & Vs); try discriminate; [| reflexivity |].
  { intros s [<-|[<-|[]]]; cbn; lra. }
  exists g. split; [exact Eg|]. destruct Hs as [<-|[<-|[]]]; [|rewrite Vs; cbn; lra]. exfalso.
  specialize (Mn q 0%Z 0%Z (-1)%Z ltac:(right; left; reflexivity) ltac:(left; reflexivity)).
  unfold away, dist3, at_x, at_y, at_z, seen, p, q, spot in Mn. cbn in Mn.
  match type of Mn with sqrt ?u <= sqrt ?w => assert (P1 : 0 <= u) by (repeat apply Rplus_le_le_0_compat; apply square_nonneg); assert (P2 : 0 <= w) by (repeat apply Rplus_le_le_0_compat; apply square_nonneg); apply sqrt_le_0 in Mn; [|exact P1|exact P2] end.
  clear P1 P2.
  assert (T : forall k, IZR k <= 0 - 1 \/ 0 <= IZR k).
  { intro k. destruct (Z_le_gt_dec 0 k) as [G|G]; [right; apply IZR_le in G; exact G|left].
    assert (k <= -1)%Z by lia. apply IZR_le in H. lra. }
  destruct (T a), (T c); nra.
Qed.

Print Assumptions C124_slice.
Print Assumptions C124_none.
Print Assumptions C124_part.
Print Assumptions C124_outside_refuted.
Print Assumptions wrapped_example.

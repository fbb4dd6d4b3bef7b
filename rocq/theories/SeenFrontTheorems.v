(** Theorems about pictures of a part of a dataset (C102). *)
From Coq Require Import List ZArith Reals Bool Lia Lra Psatz Permutation.
From Verif Require Import Base BaseLemmas VisModel VisSpec VisProofs VisTheorems RotModel HsmlModel HsmlProofs
  FrontModel FrontSpec FrontProofs FrontTheorems SeenSpec SeenProofs SeenTheorems SeenFrontSpec.
Import ListNotations.
Open Scope R_scope.
Notation drawn_at := FrontSpec.seen (only parsing).

(** * One axis *)

Lemma unscale : forall M lo w x, 0 < M -> touches (w / M) ((x - lo) / M) -> lo - w <= x <= lo + M + w.
Proof.
  intros M lo w x HM (A & B). apply (Rmult_le_compat_r M) in A; [|lra]. apply (Rmult_le_compat_r M) in B; [|lra].
  replace (- (w / M) * M) with (- w) in A by (field; lra). replace ((x - lo) / M * M) with (x - lo) in * by (field; lra).
  replace ((1 + w / M) * M) with (M + w) in B by (field; lra). lra.
Qed.

Lemma axis_reaches : forall periodic L M lo w x (a : Z), 0 < M -> (periodic = true -> 0 < L) ->
  touches (w / M) (ncoord periodic L M lo x + IZR a * pbox periodic L M) -> reaches periodic L lo (lo + M) w x.
Proof.
  intros [] L M lo w x a HM HL T; unfold reaches.
  - specialize (HL eq_refl). destruct (normed_axis L M lo x HM HL) as (k & _ & _ & E).
    unfold ncoord, rem_if, coord, pbox in T. rewrite E in T. exists (a + k)%Z. apply unscale; assumption.
  - unfold ncoord, rem_if, coord, pbox in T. rewrite Rmult_0_r, Rplus_0_r in T. apply unscale; assumption.
Qed.

Lemma unscale0 : forall M w x y, 0 < M -> - (w / M) <= x / M - y / M <= w / M -> y - w <= x <= y + w.
Proof.
  intros M w x y HM (A & B). apply (Rmult_le_compat_r M) in A; [|lra]. apply (Rmult_le_compat_r M) in B; [|lra].
  replace (- (w / M) * M) with (- w) in A by (field; lra). replace ((x / M - y / M) * M) with (x - y) in * by (field; lra).
  replace (w / M * M) with w in B by (field; lra). lra.
Qed.

Lemma height_reaches : forall periodic L M w t z (c : Z), 0 < M -> (periodic = true -> 0 < L) ->
  - (w / M) <= rem_if periodic (coord periodic L z / M) (pbox periodic L M) + IZR c * pbox periodic L M
             - rem_if periodic (t / M) (pbox periodic L M) <= w / M ->
  reaches periodic L t t w z.
Proof.
  intros [] L M w t z c HM HL T; unfold reaches.
  - specialize (HL eq_refl). destruct (normed_axis L M 0 z HM HL) as (k & _ & _ & E). rewrite Rminus_0_r in E.
    unfold rem_if, coord, pbox in T. destruct (rmod_image (t / M) (L / M)) as (j & Ej). rewrite E, Ej, Rminus_0_r in T.
    exists (c + k - j)%Z. apply (unscale0 M); [exact HM|].
    replace ((z + IZR (c + k - j) * L) / M - t / M) with ((z + IZR (c + k) * L) / M - (t / M + IZR j * (L / M)))
      by (rewrite minus_IZR; field; lra). exact T.
  - unfold rem_if, coord, pbox in T. rewrite Rmult_0_r, Rplus_0_r in T. apply (unscale0 M); assumption.
Qed.

Lemma agree_normalised : forall s sh a d coords frame norm f g,
  (forall c, in_bounds sh c = true -> in_bounds s c = true) -> agree s (Ok f) (Ok g) ->
  forall c, in_bounds sh c = true -> normalise a d coords frame norm f c = normalise a d coords frame norm g c.
Proof.
  intros s sh a d coords frame norm f g H (f' & g' & E & E' & V) c Hc. injection E as <-. injection E' as <-.
  unfold normalise. rewrite (V c) by (apply H; exact Hc). reflexivity.
Qed.

(** * Projections *)

Theorem C102_project : forall k backend a coords frame n periodic lx ly lz r rotation ps qs,
  local2 k backend -> (1 <= n)%Z -> 0 < x_extent r -> 0 < y_extent r ->
  (periodic = true -> rotation = None /\ 0 < lx /\ 0 < ly) ->
  match r_z r with Some (z0, z1) => periodic = true -> z1 - z0 <= lz | None => True end ->
  (forall p, In p ps -> 0 <= p_h p) ->
  without (fun p => looks2 periodic (lx, ly, lz) r rotation (k * p_h p) p) ps qs ->
  same_picture (drawn (project backend a coords frame n periodic (lx, ly, lz) (Some r) rotation None ps))
               (drawn (project backend a coords frame n periodic (lx, ly, lz) (Some r) rotation None qs)).
Proof.
  intros k backend a coords frame n periodic lx ly lz r rotation ps qs Lb Hn Hx Hy Hp Hz Hh K.
  pose proof (extent_pos r Hx) as HM.
  assert (Mx : x_extent r <= extent r) by apply Rmax_l. assert (My : y_extent r <= extent r) by apply Rmax_r.
  set (z0 := match r_z r with Some (z0, _) => z0 | None => 0 end).
  set (z1 := match r_z r with Some (_, z1) => z1 | None => lz end).
  set (has := match r_z r with Some _ => true | None => false end).
  set (inf := mkinfo (r_xmin r) (r_ymin r) z0 z1 (x_extent r) (y_extent r) (z1 - z0) (extent r) has
    (if periodic then (lx / extent r, ly / extent r, lz / extent r) else (0, 0, 0))).
  set (g := fun p => if has then in_depth periodic lz z0 z1 (p_z (put periodic (lx, ly, lz) rotation p)) else true).
  assert (P : forall ps, drawn (project backend a coords frame n periodic (lx, ly, lz) (Some r) rotation None ps)
    = do img <- backend n (pbox periodic lx (extent r)) (pbox periodic ly (extent r))
        (map (fun p => normed2 periodic inf (put periodic (lx, ly, lz) rotation p)) (filter g ps));
      Ok (mkpicture [stop_index n (pixels n (x_extent r) (extent r)); stop_index n (pixels n (y_extent r) (extent r))]
           (normalise a 2 coords frame (x_extent r * y_extent r) img))).
  { intro us. unfold project, region_info.
    replace (match r_z r with
      | Some (z0, z1) => (r_xmin r, r_xmax r, r_ymin r, r_ymax r, z0, z1, true)
      | None => (r_xmin r, r_xmax r, r_ymin r, r_ymax r, 0, lz, false) end)
      with (r_xmin r, r_xmax r, r_ymin r, r_ymax r, z0, z1, has)
      by (unfold z0, z1, has; destruct (r_z r) as [(? & ?)|]; reflexivity).
    cbn [andb bind]. rewrite placed_put by (intro E; apply (Hp E)). cbn [bind].
    fold (x_extent r) (y_extent r) (extent r). fold inf. unfold depth_mask. cbn [i_has_z i_zrange i_zmin i_zmax inf].
    assert (D : (if has then if periodic && negb (leb (z1 - z0) lz) then Err ValueError
             else Ok (Some (map (fun p => in_depth periodic lz z0 z1 (p_z p)) (map (put periodic (lx, ly, lz) rotation) us)))
             else Ok None)
          = Ok (if has then Some (map (fun p => in_depth periodic lz z0 z1 (p_z p)) (map (put periodic (lx, ly, lz) rotation) us)) else None)).
    { unfold has, z0, z1. destruct (r_z r) as [(u & v)|]; [|reflexivity]. unfold leb. destruct periodic; [|reflexivity].
      specialize (Hz eq_refl). destruct (Rle_dec (v - u) lz); [reflexivity|contradiction]. }
    rewrite D. clear D. cbn [bind].
    assert (U : pick (if has then Some (map (fun p => in_depth periodic lz z0 z1 (p_z p)) (map (put periodic (lx, ly, lz) rotation) us)) else None)
                  (map (put periodic (lx, ly, lz) rotation) us)
                = Ok (map (put periodic (lx, ly, lz) rotation) (filter g us))).
    { unfold g. destruct has.
      - rewrite pick_map, filter_map. reflexivity.
      - cbn [pick]. f_equal. f_equal. clear. induction us as [|u us IH]; [reflexivity|]. cbn [filter]. rewrite <- IH. reflexivity. }
    rewrite U. clear U. cbn [bind i_box inf]. unfold drawn. rewrite map_map. unfold pbox. destruct periodic; cbn [bind];
      (destruct (backend n _ _ _); reflexivity). }
  rewrite !P. clear P.
  destruct (Lb n (pbox periodic lx (extent r)) (pbox periodic ly (extent r))
     (map (fun p => normed2 periodic inf (put periodic (lx, ly, lz) rotation p)) (filter g ps))
     (map (fun p => normed2 periodic inf (put periodic (lx, ly, lz) rotation p)) (filter g qs)) Hn) as (f & f' & E & E' & V).
  - intros q Hq. apply in_map_iff in Hq. destruct Hq as (p & <- & Hin). apply filter_In in Hin. destruct Hin as (Hin & _).
    unfold inf. rewrite normed2_put. cbn [p_h]. apply Rmult_le_pos; [apply Hh; exact Hin|]. apply Rlt_le, Rinv_0_lt_compat; auto.
  - apply (without_map _ _ (fun p => looks2 periodic (lx, ly, lz) r rotation (k * p_h p) p)); [|apply without_both; exact K].
    intros p Hin (u & v & T & T'). unfold inf in T, T'. rewrite normed2_put in T, T'. cbn [p_x p_y p_h] in T, T'.
    replace (k * (p_h p / extent r)) with (k * p_h p / extent r) in * by (unfold Rdiv; ring).
    split; [apply (axis_reaches _ _ _ _ _ _ u HM) in T|apply (axis_reaches _ _ _ _ _ _ v HM) in T'];
      try assumption; intro Ep; apply (Hp Ep).
  - rewrite E, E'. cbn [bind]. eexists _, _, _. split; [reflexivity|]. split; [reflexivity|].
    apply (agree_normalised (square n)); [|exists f, f'; auto].
    intros c Hc. apply in_bounds2 in Hc. destruct Hc as (i & j & -> & Hi & Hj).
    destruct (stop_needed n (x_extent r) (extent r)) as (_ & R1); [lra|auto|].
    destruct (stop_needed n (y_extent r) (extent r)) as (_ & R2); [lra|auto|].
    unfold square. cbn [in_bounds]. rewrite !andb_true_iff, !Z.leb_le, !Z.ltb_lt. lia.
Qed.

(** * Slices *)

Theorem C102_slice_grid : forall k backend a coords frame n z_slice periodic lx ly lz r rotation ps qs,
  let t := match z_slice with Some z => z | None => 0 end
           + match rotation with Some (_, c) => at_z c | None => 0 end in
  local_slice k backend -> (1 <= n)%Z -> 0 < x_extent r -> 0 < y_extent r ->
  (periodic = true -> rotation = None /\ 0 < lx /\ 0 < ly /\ 0 < lz) ->
  (forall p, In p ps -> 0 < p_h p) ->
  without (fun p => looks_slice periodic (lx, ly, lz) r t rotation (k * p_h p) p) ps qs ->
  same_picture (drawn (slice_grid backend a coords frame n z_slice periodic (lx, ly, lz) (Some r) rotation None ps))
               (drawn (slice_grid backend a coords frame n z_slice periodic (lx, ly, lz) (Some r) rotation None qs)).
Proof.
  intros k backend a coords frame n z_slice periodic lx ly lz r rotation ps qs t Lb Hn Hx Hy Hp Hh K.
  pose proof (extent_pos r Hx) as HM.
  assert (Mx : x_extent r <= extent r) by apply Rmax_l. assert (My : y_extent r <= extent r) by apply Rmax_r.
  assert (Et : match z_slice with Some z => z | None => 0 end
               + match rotation with Some (_, (_, _, c)) => c | None => 0 end = t).
  { unfold t. destruct rotation as [(m & ((u & v) & w))|]; reflexivity. }
  set (z0 := match r_z r with Some (z0, _) => z0 | None => 0 end).
  set (z1 := match r_z r with Some (_, z1) => z1 | None => lz end).
  set (has := match r_z r with Some _ => true | None => false end).
  set (inf := mkinfo (r_xmin r) (r_ymin r) z0 z1 (x_extent r) (y_extent r) (z1 - z0) (extent r) has
    (if periodic then (lx / extent r, ly / extent r, lz / extent r) else (0, 0, 0))).
  set (xres := pixels n (x_extent r) (extent r)). set (yres := pixels n (y_extent r) (extent r)).
  assert (Ex : forall range, pixels_slice n range (extent r) = pixels n range (extent r)).
  { intro range. unfold pixels_slice, pixels. f_equal. unfold Rdiv. ring. }
  assert (P : forall ps, drawn (slice_grid backend a coords frame n z_slice periodic (lx, ly, lz) (Some r) rotation None ps)
    = do img <- backend xres yres (rem_if periodic (t / extent r) (pbox periodic lz (extent r)))
        (pbox periodic lx (extent r)) (pbox periodic ly (extent r)) (pbox periodic lz (extent r))
        (map (fun p => normed_slice periodic inf (put periodic (lx, ly, lz) rotation p)) ps);
      Ok (mkpicture [xres; yres] (normalise a 3 coords frame (extent r ^ 3) img))).
  { intro us. unfold slice_grid, region_info.
    replace (match r_z r with
      | Some (z0, z1) => (r_xmin r, r_xmax r, r_ymin r, r_ymax r, z0, z1, true)
      | None => (r_xmin r, r_xmax r, r_ymin r, r_ymax r, 0, lz, false) end)
      with (r_xmin r, r_xmax r, r_ymin r, r_ymax r, z0, z1, has)
      by (unfold z0, z1, has; destruct (r_z r) as [(? & ?)|]; reflexivity).
    cbn [andb bind]. rewrite placed_put by (intro E; apply (Hp E)). cbn [bind].
    fold (x_extent r) (y_extent r) (extent r). fold inf. cbn [i_xrange i_yrange i_max inf]. rewrite !Ex. fold xres yres.
    cbn [pick bind i_box]. rewrite Et. unfold drawn. rewrite map_map. unfold pbox, inf.
    destruct periodic; cbn [bind i_box]; match goal with |- context [backend ?x1 ?x2 ?x3 ?x4 ?x5 ?x6 ?x7] =>
      destruct (backend x1 x2 x3 x4 x5 x6 x7) end; reflexivity. }
  rewrite !P. clear P. pose proof (pixels_max n r Hn Hx Hy) as Pm. fold xres yres in Pm.
  destruct (Lb xres yres (rem_if periodic (t / extent r) (pbox periodic lz (extent r)))
     (pbox periodic lx (extent r)) (pbox periodic ly (extent r)) (pbox periodic lz (extent r))
     (map (fun p => normed_slice periodic inf (put periodic (lx, ly, lz) rotation p)) ps)
     (map (fun p => normed_slice periodic inf (put periodic (lx, ly, lz) rotation p)) qs)) as (f & f' & E & E' & V).
  - rewrite Pm. exact Hn.
  - intros q Hq. apply in_map_iff in Hq. destruct Hq as (p & <- & Hin).
    unfold inf. rewrite normed_slice_put. cbn [p_h]. apply Rdiv_lt_0_compat; [apply Hh; exact Hin|exact HM].
  - apply (without_map _ _ (fun p => looks_slice periodic (lx, ly, lz) r t rotation (k * p_h p) p)); [|exact K].
    intros p Hin (u & v & w & T & T' & T''). unfold inf in T, T', T''. rewrite normed_slice_put in T, T', T''.
    cbn [p_x p_y p_z p_h] in T, T', T''.
    replace (k * (p_h p / extent r)) with (k * p_h p / extent r) in * by (unfold Rdiv; ring).
    split; [split|].
    + apply (axis_reaches _ _ _ _ _ _ u HM) in T; [exact T|]. intro Ep; apply (Hp Ep).
    + apply (axis_reaches _ _ _ _ _ _ v HM) in T'; [exact T'|]. intro Ep; apply (Hp Ep).
    + apply (height_reaches _ _ (extent r) _ _ _ w HM); [|exact T'']. intro Ep; apply (Hp Ep).
  - rewrite E, E'. cbn [bind]. eexists _, _, _. split; [reflexivity|]. split; [reflexivity|].
    apply (agree_normalised [xres; yres]); [auto|exists f, f'; auto].
Qed.

(** * Volumes *)

Theorem C102_voxel_grid : forall k backend a coords frame n periodic lx ly lz x0 y0 z0 M rotation ps qs,
  local3 k backend -> (1 <= n)%Z -> 0 < M ->
  (periodic = true -> rotation = None /\ 0 < lx /\ 0 < ly /\ 0 < lz) ->
  (forall p, In p ps -> 0 <= p_h p) ->
  without (fun p => looks3 periodic (lx, ly, lz) (x0, y0, z0) M rotation (k * p_h p) p) ps qs ->
  let r := mkregion x0 (x0 + M) y0 (y0 + M) (Some (z0, z0 + M)) in
  same_picture (drawn (voxel_grid backend a coords frame n periodic (lx, ly, lz) (Some r) rotation None ps))
               (drawn (voxel_grid backend a coords frame n periodic (lx, ly, lz) (Some r) rotation None qs)).
Proof.
  intros k backend a coords frame n periodic lx ly lz x0 y0 z0 M rotation ps qs Lb Hn HM Hp Hh K r.
  set (nq := fun p => mkpart (ncoord periodic lx M x0 (at_x (drawn_at rotation p))) (ncoord periodic ly M y0 (at_y (drawn_at rotation p)))
           (ncoord periodic lz M z0 (at_z (drawn_at rotation p))) (p_m p) (p_h p / M)).
  assert (P : forall ps, drawn (voxel_grid backend a coords frame n periodic (lx, ly, lz) (Some r) rotation None ps)
    = do img <- backend n (pbox periodic lx M) (pbox periodic ly M) (pbox periodic lz M) (map nq ps);
      Ok (mkpicture (cube n) (normalise a 3 coords frame (M * M * M) img))).
  { intro us. unfold voxel_grid, region_info, r. cbn [r_xmin r_xmax r_ymin r_ymax r_z].
    replace (x0 + M - x0) with M by ring. replace (y0 + M - y0) with M by ring. replace (z0 + M - z0) with M by ring.
    rewrite isclose_refl, Rmax_left by lra. cbn [andb negb bind].
    rewrite placed_put by (intro E; apply (Hp E)). cbn [bind pick i_box]. unfold drawn.
    set (inf := mkinfo _ _ _ _ _ _ _ _ _ _). cbn [bind]. rewrite map_map.
    rewrite (map_ext (fun p => normed3 periodic inf (put periodic (lx, ly, lz) rotation p)) nq).
    2: { intro p. unfold nq, normed3, put, inf. destruct (drawn_at rotation p) as ((x & y) & z). destruct periodic; reflexivity. }
    unfold pbox. destruct periodic; cbn [bind]; (destruct (backend n _ _ _ _); reflexivity). }
  rewrite !P. clear P.
  destruct (Lb n (pbox periodic lx M) (pbox periodic ly M) (pbox periodic lz M) (map nq ps) (map nq qs) Hn) as (f & f' & E & E' & V).
  - intros q Hq. apply in_map_iff in Hq. destruct Hq as (p & <- & Hin). cbn [nq p_h].
    apply Rmult_le_pos; [apply Hh; exact Hin|]. apply Rlt_le, Rinv_0_lt_compat; auto.
  - apply (without_map _ _ (fun p => looks3 periodic (lx, ly, lz) (x0, y0, z0) M rotation (k * p_h p) p)); [|exact K].
    intros p Hin (u & v & w & T & T' & T''). cbn [nq p_x p_y p_z p_h] in T, T', T''.
    replace (k * (p_h p / M)) with (k * p_h p / M) in * by (unfold Rdiv; ring).
    split; [|split].
    + apply (axis_reaches _ _ _ _ _ _ u HM) in T; [exact T|]. intro Ep; apply (Hp Ep).
    + apply (axis_reaches _ _ _ _ _ _ v HM) in T'; [exact T'|]. intro Ep; apply (Hp Ep).
    + apply (axis_reaches _ _ _ _ _ _ w HM) in T''; [exact T''|]. intro Ep; apply (Hp Ep).
  - rewrite E, E'. cbn [bind]. eexists _, _, _. split; [reflexivity|]. split; [reflexivity|].
    apply (agree_normalised (cube n)); [auto|exists f, f'; auto].
Qed.

(** * The backends *)

Lemma seen_zero : forall bx by_ ps qs, without (fun p => seen2 bx by_ (0 * p_h p) p) ps qs -> without (seen2 bx by_ 0) ps qs.
Proof.
  intros bx by_ ps qs K. rewrite <- (map_id ps), <- (map_id qs).
  eapply without_map; [|eassumption]. cbv beta. intros p _. rewrite Rmult_0_l. auto.
Qed.

Lemma slice_trimmed : forall xres yres a b, agree (square (Z.max xres yres)) a b -> agree [xres; yres] a b.
Proof.
  intros xres yres a b (f & g & -> & -> & H). exists f, g. split; [reflexivity|]. split; [reflexivity|].
  intros c Hc. apply H. apply in_bounds2 in Hc. destruct Hc as (i & j & -> & Hi & Hj).
  unfold square. cbn [in_bounds]. rewrite !andb_true_iff, !Z.leb_le, !Z.ltb_lt. lia.
Qed.

Theorem C102_backends :
  local2 gamma2 fast /\ local2 0 histogram /\ local2 gamma2 renormalised /\ local2 gamma2 reference
  /\ (forall e d, (1 <= d)%Z -> local2 gamma2 (subsampled e d))
  /\ local_slice gamma3 slice_scatter /\ local3 gamma3 volume.
Proof.
  repeat split; unfold local2, local_slice, local3; intros.
  - apply C102_fast; assumption.
  - apply C102_histogram, seen_zero. assumption.
  - apply C102_renormalised; assumption.
  - apply C102_reference; assumption.
  - apply C102_subsampled; assumption.
  - apply slice_trimmed, C102_slice; assumption.
  - apply C102_volume; assumption.
Qed.

Theorem C102_parallel_backends : forall t o e d, (1 <= t)%Z -> (1 <= d)%Z -> Permutation o (zrange 0 t) ->
  local2 gamma2 (fun n bx by_ ps => fast_parallel n bx by_ ps t o)
  /\ local2 gamma2 (fun n bx by_ ps => renormalised_parallel n bx by_ ps t o)
  /\ local2 gamma2 (fun n bx by_ ps => reference_parallel n bx by_ ps t o)
  /\ local2 gamma2 (fun n bx by_ ps => subsampled_parallel e d n bx by_ ps t o)
  /\ local2 0 (fun n bx by_ ps => histogram_parallel n bx by_ ps t o)
  /\ local_slice gamma3 (fun xres yres zs bx by_ bz ps => slice_parallel xres yres zs bx by_ bz ps t o)
  /\ local3 gamma3 (fun n bx by_ bz ps => volume_parallel n 1 bx by_ bz ps t o).
Proof.
  intros t o e d Ht Hd Po. repeat split; unfold local2, local_slice, local3; intros.
  - apply (C102_parallel n bx by_ ps qs t o t o); assumption.
  - apply (C102_parallel n bx by_ ps qs t o t o); assumption.
  - apply (C102_parallel n bx by_ ps qs t o t o); assumption.
  - apply (C102_parallel_others n bx by_ ps qs t o t o e d); assumption.
  - apply (C102_parallel_others n bx by_ ps qs t o t o e d); try assumption. apply seen_zero. assumption.
  - apply (agree_trans _ _ (slice_scatter xres yres zs bx by_ bz ps)); [apply agree_sym, C36_slice; assumption|].
    apply (agree_trans _ _ (slice_scatter xres yres zs bx by_ bz qs)); [apply slice_trimmed, C102_slice; assumption|apply C36_slice; assumption].
  - apply (C102_parallel_others n bx by_ ps qs t o t o e d); assumption.
Qed.

Theorem C102_gpu_backend : forall order, (forall bx by_ ps, Permutation (order bx by_ ps) (gpu_threads bx by_ ps)) ->
  local2 gamma2 (fun n bx by_ ps => gpu n bx by_ ps (order bx by_ ps)).
Proof. intros order Ho n bx by_ ps qs Hn Hh K. apply C102_gpu; auto. Qed.

(** * An example *)

(** A region of a periodic box that goes over its border: a particle near the other border is to be kept, one in
    the middle of the box may be left out. *)
Example C102_project_case :
  let r := mkregion (-1) 1 (-1) 1 None in
  let near := mkpart (99 / 10) (1 / 2) 5 1 (1 / 10) in
  let far := mkpart 5 5 5 1 (1 / 10) in
  without (fun p => looks2 true (10, 10, 10) r None (gamma2 * p_h p) p) [near; far] [near]
  /\ looks2 true (10, 10, 10) r None (gamma2 * p_h near) near.
Proof.
  cbv zeta. assert (Ex : extent (mkregion (-1) 1 (-1) 1 None) = 2).
  { unfold extent, x_extent, y_extent. cbn [r_xmin r_xmax r_ymin r_ymax]. rewrite Rmax_left; lra. }
  split.
  - constructor. apply without_left; [|constructor]. intros ((i & T) & _). revert T. rewrite Ex.
    unfold at_x, drawn_at, position. cbn [fst snd r_xmin p_x p_h]. unfold gamma2. intros (A & B).
    assert (i < 0)%Z by (apply lt_IZR; lra). assert (-1 < i)%Z by (apply lt_IZR; lra). lia.
  - unfold looks2, reaches, image_in. rewrite Ex. unfold at_x, at_y, drawn_at, position. cbn [fst snd r_xmin r_ymin p_x p_y p_h]. unfold gamma2.
    split; [exists (-1)%Z|exists 0%Z]; lra.
Qed.

Print Assumptions C102_project.
Print Assumptions C102_slice_grid.
Print Assumptions C102_voxel_grid.
Print Assumptions C102_backends.
Print Assumptions C102_parallel_backends.
Print Assumptions C102_gpu_backend.

(** Smoothing-length generation (C46) and nearest neighbour slices (C59). *)
From Coq Require Import List ZArith Reals Bool Lra Lia Psatz.
From Verif Require Import Base BaseLemmas VisModel VisSpec VisProofs RotModel HsmlModel HsmlProofs.
Import ListNotations.
Open Scope R_scope.

(** The indices that a block of the loop reads and writes (slices stop at the end). *)
Definition block_indices (bs n b : Z) : list Z :=
  match block_range bs n b with
  | None => []
  | Some (start, stop) => zrange start (Z.min stop n)
  end.

(** C46: the blocks one after the other are all the indices in order, so every particle is
    in exactly one block, and no block causes an early exit or starts past the end. *)
Theorem C46_blocks : forall bs n,
  (1 <= bs)%Z -> (1 <= n)%Z ->
  flat_map (block_indices bs n) (zrange 0 (1 + n / bs)) = zrange 0 n
  /\ (forall b, (0 <= b < 1 + n / bs)%Z ->
      exists start stop, block_range bs n b = Some (start, stop)
                         /\ (0 <= start <= n)%Z /\ (start < stop <= n + 1)%Z).
Proof.
  intros bs n Hbs Hn.
  assert (Hd : (n = bs * (n / bs) + n mod bs)%Z) by (apply Z.div_mod; lia).
  assert (Hm : (0 <= n mod bs < bs)%Z) by (apply Z.mod_pos_bound; lia).
  assert (Hq : (0 <= n / bs)%Z) by (apply Z.div_pos; lia).
  set (q := (n / bs)%Z) in *.
  assert (R : forall b, (0 <= b < 1 + q)%Z ->
    block_range bs n b = Some ((b * bs)%Z, if (b =? q)%Z then (n + 1)%Z else ((b + 1) * bs)%Z)).
  { intros b Hb. unfold block_range.
    assert (E : (if (n <? (b + 1) * bs)%Z then (n + 1)%Z else ((b + 1) * bs)%Z)
                = if (b =? q)%Z then (n + 1)%Z else ((b + 1) * bs)%Z).
    { destruct (Z.ltb_spec n ((b + 1) * bs)) as [?|?]; destruct (Z.eqb_spec b q) as [?|?];
        try reflexivity; nia. }
    rewrite E. destruct (Z.leb_spec (if (b =? q)%Z then (n + 1)%Z else ((b + 1) * bs)%Z) (b * bs)) as [H|_];
      [|reflexivity].
    exfalso. destruct (Z.eqb_spec b q); nia. }
  split.
  - assert (P : forall m, (0 <= m)%Z -> (m <= q)%Z ->
              flat_map (block_indices bs n) (zrange 0 m) = zrange 0 (m * bs)).
    { refine (natlike_ind _ _ _).
      - intros _. rewrite !zrange_nil by lia. reflexivity.
      - intros m Hm0 IH Hmq. unfold Z.succ. rewrite (zrange_snoc 0 m) by lia.
        rewrite flat_map_app, IH by lia. cbn [flat_map]. rewrite app_nil_r.
        unfold block_indices. rewrite R by lia. destruct (Z.eqb_spec m q); [lia|].
        rewrite Z.min_l by nia. rewrite <- zrange_app by nia. reflexivity. }
    rewrite (Z.add_comm 1 q), (zrange_snoc 0 q) by lia.
    rewrite flat_map_app, P by lia. cbn [flat_map]. rewrite app_nil_r.
    unfold block_indices. rewrite R by lia. rewrite Z.eqb_refl, Z.min_r by lia.
    rewrite <- zrange_app by nia. reflexivity.
  - intros b Hb. rewrite R by exact Hb. do 2 eexists. split; [reflexivity|].
    split; [nia|]. destruct (Z.eqb_spec b q); nia.
Qed.

(** C46: every particle gets its own smoothing length: the distance to its [k]-th closest
    particle (itself included), times the correction.  No entry is left unset. *)
Theorem C46_smoothing_lengths : forall bs coordinates box gamma neighbours speedup dimension,
  (1 <= bs)%Z -> coordinates <> [] ->
  (forall c, In c coordinates -> in_box box c) ->
  (1 <= speedup)%Z -> (1 <= dimension)%Z -> (2 <= neighbours / speedup)%Z ->
  let k := (neighbours / speedup)%Z in
  let factor := Rpower (IZR speedup) (1 / IZR dimension) / gamma in
  exists out,
    generate_smoothing_lengths bs coordinates box gamma neighbours speedup dimension = Ok out
    /\ length out = length coordinates
    /\ forall i c, nth_error coordinates i = Some c ->
         ((k <= zlen coordinates)%Z ->
          exists r, nth_error out i = Some (Number (r * factor))
                    /\ kth_smallest k (map (tree_distance box c) coordinates) r)
         /\ ((zlen coordinates < k)%Z -> nth_error out i = Some Infinite).
Proof.
  intros bs cs box gamma neighbours speedup dimension Hbs Hne Hin Hs Hd Hk k factor.
  assert (Hn : (1 <= zlen cs)%Z).
  { destruct cs; [contradiction|]. rewrite zlen_cons. pose proof (zlen_nonneg cs). lia. }
  unfold generate_smoothing_lengths. rewrite build_ok by exact Hin. cbn [bind].
  destruct (Z.eqb_spec (zlen cs) 0); [lia|].
  destruct (Z.eqb_spec speedup 0); [lia|]. destruct (Z.eqb_spec dimension 0); [lia|].
  set (out0 := upd _ _ _). fold k. fold factor.
  assert (Hl : length out0 = length cs).
  { unfold out0. rewrite upd_length, repeat_length. unfold zlen. lia. }
  pose proof (blocks_loop_ok box cs k bs out0 Hk Hbs Hl (Z.to_nat (1 + zlen cs / bs)) 0) as L.
  cbv zeta in L. cbn [Z.mul Z.to_nat firstn map app skipn] in L.
  assert (Hq : (0 <= zlen cs / bs)%Z) by (apply Z.div_pos; lia).
  rewrite L by lia. cbn [bind].
  eexists. split; [reflexivity|]. split; [rewrite !map_length; reflexivity|].
  intros i c Hi.
  destruct (query_row_last box cs k c ltac:(lia)) as [Q1 Q2].
  split; intro Hkn.
  - destruct (Q1 Hkn) as (r & E & K). exists r. split; [|exact K].
    pose proof (map_nth_error (fun c => last (query_row box cs k c) Infinite) _ _ Hi) as E1.
    pose proof (map_nth_error (times factor) _ _ E1) as E2. cbv beta in E2. rewrite E in E2. exact E2.
  - pose proof (map_nth_error (fun c => last (query_row box cs k c) Infinite) _ _ Hi) as E1.
    pose proof (map_nth_error (times factor) _ _ E1) as E2. cbv beta in E2. rewrite (Q2 Hkn) in E2. exact E2.
Qed.

(** The distances used are those to the closest periodic images. *)
Theorem C46_distances : forall box a b,
  in_box box a -> in_box box b -> closest box a b (tree_distance box a b).
Proof. exact tree_distance_closest. Qed.

(** The result does not depend on the size of the blocks. *)
Theorem C46_block_size_irrelevant : forall bs bs' coordinates box gamma neighbours speedup dimension,
  (1 <= bs)%Z -> (1 <= bs')%Z -> (2 <= neighbours / speedup)%Z ->
  generate_smoothing_lengths bs coordinates box gamma neighbours speedup dimension
  = generate_smoothing_lengths bs' coordinates box gamma neighbours speedup dimension.
Proof.
  intros bs bs' cs box gamma neighbours speedup dimension H1 H2 Hk.
  unfold generate_smoothing_lengths, build. destruct (existsb _ _); [reflexivity|]. cbn [bind].
  destruct (Z.eqb_spec (zlen cs) 0); [reflexivity|].
  destruct (speedup =? 0)%Z; [reflexivity|]. destruct (dimension =? 0)%Z; [reflexivity|].
  set (out0 := upd _ _ _).
  assert (Hl : length out0 = length cs).
  { unfold out0. rewrite upd_length, repeat_length. unfold zlen. lia. }
  pose proof (zlen_nonneg cs) as Hn.
  assert (L : forall b, (1 <= b)%Z ->
    blocks_loop box cs (neighbours / speedup) b (zrange 0 (1 + zlen cs / b)) out0
    = Ok (map (fun c => last (query_row box cs (neighbours / speedup) c) Infinite) cs)).
  { intros b Hb.
    pose proof (blocks_loop_ok box cs (neighbours / speedup) b out0 Hk Hb Hl (Z.to_nat (1 + zlen cs / b)) 0) as L.
    cbv zeta in L. cbn [Z.mul Z.to_nat firstn map app skipn] in L.
    assert (Hq : (0 <= zlen cs / b)%Z) by (apply Z.div_pos; lia). apply L; lia. }
  rewrite !L by assumption. reflexivity.
Qed.

(** What the function cannot do: no particles, one neighbour, or a particle outside the box. *)
Theorem C46_rejected : forall bs coordinates box gamma neighbours speedup dimension,
  (1 <= bs)%Z -> (1 <= speedup)%Z -> (1 <= dimension)%Z ->
  (coordinates = [] ->
   generate_smoothing_lengths bs coordinates box gamma neighbours speedup dimension = Err IndexError)
  /\ (coordinates <> [] -> (forall c, In c coordinates -> in_box box c) ->
      (neighbours / speedup = 1)%Z ->
      generate_smoothing_lengths bs coordinates box gamma neighbours speedup dimension = Err IndexError)
  /\ ((let '(lx, ly, lz) := box in 0 < lx /\ 0 < ly /\ 0 < lz) ->
      (exists c, In c coordinates /\ ~ in_box box c) ->
      generate_smoothing_lengths bs coordinates box gamma neighbours speedup dimension = Err ValueError).
Proof.
  intros bs cs box gamma neighbours speedup dimension Hbs Hs Hd. split; [|split].
  - intros ->. reflexivity.
  - intros Hne Hin Hk. unfold generate_smoothing_lengths. rewrite build_ok by exact Hin. cbn [bind].
    assert (Hn : (1 <= zlen cs)%Z).
    { destruct cs; [contradiction|]. rewrite zlen_cons. pose proof (zlen_nonneg cs). lia. }
    destruct (Z.eqb_spec (zlen cs) 0); [lia|].
    destruct (Z.eqb_spec speedup 0); [lia|]. destruct (Z.eqb_spec dimension 0); [lia|].
    assert (Hq : (0 <= zlen cs / bs)%Z) by (apply Z.div_pos; lia).
    rewrite zrange_cons by lia. cbn [blocks_loop].
    destruct (proj2 (C46_blocks bs (zlen cs) Hbs Hn) 0%Z ltac:(lia)) as (a & b & E & _).
    rewrite E. unfold query_last. rewrite Hk. reflexivity.
  - intros Hb (c & Hc & Ho). unfold generate_smoothing_lengths, build.
    assert (existsb (outside box) cs = true) as ->; [|reflexivity].
    apply existsb_exists. exists c. split; [exact Hc|]. apply outside_true; assumption.
Qed.

(** * Nearest neighbour slices *)

Definition positive (box : vec) : Prop := let '(lx, ly, lz) := box in 0 < lx /\ 0 < ly /\ 0 < lz.

Definition position (p : part) : vec := (p_x p, p_y p, p_z p).
(** The centre of a pixel of an image whose longer side has unit length. *)
Definition pixel_centre (xres yres : Z) (zs : R) (i j : Z) : vec :=
  ((IZR i + / 2) / IZR (Z.max xres yres), (IZR j + / 2) / IZR (Z.max xres yres), zs).

Lemma image_of_shift : forall box p i j k i' j' k',
  image_of box (image_of box p i j k) i' j' k' = image_of box p (i + i') (j + j') (k + k').
Proof.
  intros [[lx ly] lz] [[x y] z] i j k i' j' k'. unfold image_of. rewrite !plus_IZR.
  f_equal; [f_equal|]; ring.
Qed.

Lemma separation_shift : forall box a b i j k,
  separation (image_of box a i j k) (image_of box b i j k) = separation a b.
Proof.
  intros [[lx ly] lz] [[ax ay] az] [[bx by_] bz] i j k.
  unfold separation, image_of, square_length. cbn [vsub]. f_equal. ring.
Qed.

Lemma wrap_image : forall box p, positive box -> exists i j k, wrap_point box p = image_of box p i j k.
Proof.
  intros [[lx ly] lz] [[x y] z] (Lx & Ly & Lz). unfold wrap_point, wrap_axis.
  destruct (Req_EM_T lx 0); [lra|]. destruct (Req_EM_T ly 0); [lra|]. destruct (Req_EM_T lz 0); [lra|].
  destruct (rmod_image x lx) as [i ->]. destruct (rmod_image y ly) as [j ->].
  destruct (rmod_image z lz) as [k ->]. exists i, j, k. reflexivity.
Qed.

(** Distances between wrapped points are the distances to the closest images. *)
Lemma wrapped_closest : forall box a b,
  positive box -> closest box a b (tree_distance box (wrap_point box a) (wrap_point box b)).
Proof.
  intros box a b Hb.
  destruct (tree_distance_closest box _ _ (wrap_in_box box a Hb) (wrap_in_box box b Hb))
    as [(i & j & k & E) M].
  destruct (wrap_image box a Hb) as (ai & aj & ak & Ea).
  destruct (wrap_image box b Hb) as (bi & bj & bk & Eb).
  set (d := tree_distance _ _ _) in *. clearbody d. rewrite Ea, Eb in E, M.
  assert (T : forall i j k, separation (image_of box a ai aj ak) (image_of box (image_of box b bi bj bk) i j k)
              = separation a (image_of box b (bi + i - ai) (bj + j - aj) (bk + k - ak))).
  { intros i' j' k'. rewrite <- (separation_shift box a _ ai aj ak), !image_of_shift.
    do 2 f_equal; lia. }
  split.
  - eexists _, _, _. rewrite E. apply T.
  - intros i' j' k'. specialize (M (i' + ai - bi) (j' + aj - bj) (k' + ak - bk))%Z. rewrite T in M.
    replace (bi + (i' + ai - bi) - ai)%Z with i' in M by lia.
    replace (bj + (j' + aj - bj) - aj)%Z with j' in M by lia.
    replace (bk + (k' + ak - bk) - ak)%Z with k' in M by lia. exact M.
Qed.

(** C59: every pixel holds mass over cubed size of a particle that has an image at least as
    close to the pixel's centre as any image of any other particle. *)
Theorem C59_nearest : forall xres yres zs box ps,
  positive box -> ps <> [] ->
  exists img, nearest_slice xres yres zs box ps = Ok img
    /\ forall i j, exists p,
         In p ps /\ img [i; j] = p_m p / (p_h p) ^ 3
         /\ exists a b c, forall q, In q ps -> forall a' b' c',
              separation (pixel_centre xres yres zs i j) (image_of box (position p) a b c)
              <= separation (pixel_centre xres yres zs i j) (image_of box (position q) a' b' c').
Proof.
  intros xres yres zs box ps Hb Hne. unfold nearest_slice.
  rewrite build_ok.
  2:{ intros w Hw. apply in_map_iff in Hw. destruct Hw as (p & <- & _). apply wrap_in_box. exact Hb. }
  cbn [bind]. destruct ps as [|p0 ps]; [contradiction|]. cbn [map].
  eexists. split; [reflexivity|]. intros i j. cbv beta iota.
  set (w := fun p => wrap_point box (p_x p, p_y p, p_z p)).
  set (c := wrap_point box (pixel_point xres yres zs i j)).
  destruct (nearest_spec box c (map w ps) 1 0 (tree_distance box c (w p0)) [w p0]) as (v & Ev & Mv).
  - reflexivity.
  - cbn; lia.
  - intros p Hp. injection Hp as <-. reflexivity.
  - intros p [<-|[]]. lra.
  - cbv zeta in Ev. change ([w p0] ++ map w ps) with (map w (p0 :: ps)) in Ev, Mv.
    set (r := nearest box c (map w ps) 1 0 (tree_distance box c (w p0))) in *.
    assert (Hp : exists p, nth_error (p0 :: ps) r = Some p /\ v = w p).
    { clearbody r. clear - Ev. revert r Ev. generalize (p0 :: ps). induction l as [|x l IH]; intros [|r] E; try discriminate.
      - injection E as <-. exists x. split; reflexivity.
      - exact (IH r E). }
    destruct Hp as (p & Ep & ->).
    exists p. split; [exact (nth_error_In _ _ Ep)|].
    change (wrap_point box (p_x p0, p_y p0, p_z p0)) with (w p0).
    fold c. fold r. rewrite Ep. split.
    { f_equal. cbn [pow]. ring. }
    destruct (wrapped_closest box (pixel_point xres yres zs i j) (position p) Hb) as [(a & b & d & E) _].
    exists a, b, d. intros q Hq a' b' c'.
    assert (Hpp : pixel_point xres yres zs i j = pixel_centre xres yres zs i j).
    { unfold pixel_point, pixel_centre. f_equal. f_equal; f_equal; lra. }
    rewrite Hpp in E. rewrite <- E, <- Hpp.
    destruct (wrapped_closest box (pixel_point xres yres zs i j) (position q) Hb) as [_ M].
    eapply Rle_trans; [|apply (M a' b' c')].
    apply Mv. apply (in_map w). exact Hq.
Qed.

(** Without a box the plain distances count; with no particles at all there is no nearest. *)
Theorem C59_not_periodic : forall xres yres zs ps,
  ps <> [] ->
  exists img, nearest_slice xres yres zs (0, 0, 0) ps = Ok img
    /\ forall i j, exists p,
         In p ps /\ img [i; j] = p_m p / (p_h p) ^ 3
         /\ forall q, In q ps ->
              separation (pixel_centre xres yres zs i j) (position p)
              <= separation (pixel_centre xres yres zs i j) (position q).
Proof.
  intros xres yres zs ps Hne.
  assert (W : forall v, wrap_point (0, 0, 0) v = v).
  { intros [[x y] z]. unfold wrap_point, wrap_axis. destruct (Req_EM_T 0 0); [reflexivity|lra]. }
  assert (D : forall a b, tree_distance (0, 0, 0) a b = separation a b).
  { intros [[ax ay] az] [[bx by_] bz]. unfold tree_distance, axis_distance, separation, square_length.
    destruct (Req_EM_T 0 0); [|lra]. cbn [vsub]. f_equal.
    assert (S : forall t, Rabs t * Rabs t = t * t) by (intro t; unfold Rabs; destruct (Rcase_abs t); ring).
    rewrite !S. ring. }
  assert (O : forall l, existsb (outside (0, 0, 0)) l = false).
  { induction l as [|[[x y] z] t IH]; [reflexivity|]. cbn [existsb]. rewrite IH.
    unfold outside, outside_axis. destruct (Req_EM_T 0 0); [reflexivity|lra]. }
  unfold nearest_slice, build. rewrite O. cbn [bind].
  destruct ps as [|p0 ps]; [contradiction|]. cbn [map].
  eexists. split; [reflexivity|]. intros i j. cbv beta iota.
  set (w := fun p => wrap_point (0, 0, 0) (p_x p, p_y p, p_z p)).
  set (c := wrap_point (0, 0, 0) (pixel_point xres yres zs i j)).
  destruct (nearest_spec (0, 0, 0) c (map w ps) 1 0 (tree_distance (0, 0, 0) c (w p0)) [w p0]) as (v & Ev & Mv).
  - reflexivity.
  - cbn; lia.
  - intros p Hp. injection Hp as <-. reflexivity.
  - intros p [<-|[]]. lra.
  - cbv zeta in Ev. change ([w p0] ++ map w ps) with (map w (p0 :: ps)) in Ev, Mv.
    set (r := nearest (0, 0, 0) c (map w ps) 1 0 (tree_distance (0, 0, 0) c (w p0))) in *.
    assert (Hp : exists p, nth_error (p0 :: ps) r = Some p /\ v = w p).
    { clearbody r. clear - Ev. revert r Ev. generalize (p0 :: ps). induction l as [|x l IH]; intros [|r] E; try discriminate.
      - injection E as <-. exists x. split; reflexivity.
      - exact (IH r E). }
    destruct Hp as (p & Ep & ->).
    exists p. split; [exact (nth_error_In _ _ Ep)|].
    change (wrap_point (0, 0, 0) (p_x p0, p_y p0, p_z p0)) with (w p0).
    fold c. fold r. rewrite Ep. split.
    { f_equal. cbn [pow]. ring. }
    intros q Hq.
    assert (Hpp : pixel_point xres yres zs i j = pixel_centre xres yres zs i j).
    { unfold pixel_point, pixel_centre. f_equal. f_equal; f_equal; lra. }
    specialize (Mv (w q) (in_map w _ _ Hq)). rewrite !D in Mv.
    unfold c, w in Mv. rewrite !W, Hpp in Mv. exact Mv.
Qed.

(** * Concrete cases *)

(** Three particles in blocks of two, with two neighbours each. *)
Example three_particles :
  let cs := [(1, 1, 1); (2, 1, 1); (9, 1, 1)] in
  (forall c, In c cs -> in_box (10, 10, 10) c) /\ cs <> [] /\ (2 <= 4 / 2)%Z
  /\ kth_smallest 2 (map (tree_distance (10, 10, 10) (1, 1, 1)) cs) 1.
Proof.
  cbv zeta. split; [|split; [discriminate|split; [vm_compute; discriminate|]]].
  - intros c [<-|[<-|[<-|[]]]]; unfold in_box; lra.
  - assert (A : axis_distance 10 1 1 = 0).
    { unfold axis_distance. destruct (Req_EM_T 10 0); [lra|]. rewrite Rabs_pos_eq by lra.
      rewrite Rmin_left; lra. }
    assert (B : axis_distance 10 1 2 = 1).
    { unfold axis_distance. destruct (Req_EM_T 10 0); [lra|]. rewrite Rabs_left by lra.
      rewrite Rmin_left; lra. }
    assert (C : axis_distance 10 1 9 = 2).
    { unfold axis_distance. destruct (Req_EM_T 10 0); [lra|]. rewrite Rabs_left by lra.
      rewrite Rmin_right; lra. }
    cbn [map]. unfold tree_distance. rewrite A, B, C.
    replace (0 * 0 + 0 * 0 + 0 * 0) with 0 by ring. rewrite sqrt_0.
    replace (1 * 1 + 0 * 0 + 0 * 0) with 1 by ring. rewrite sqrt_1.
    replace (2 * 2 + 0 * 0 + 0 * 0) with (2 * 2) by ring. rewrite sqrt_square by lra.
    split; [right; left; reflexivity|]. cbn [below upto].
    repeat match goal with
           | |- context [Rlt_dec ?a ?b] => destruct (Rlt_dec a b); try lra
           | |- context [Rle_dec ?a ?b] => destruct (Rle_dec a b); try lra
           end. lia.
Qed.

(** A whole number of blocks: the last one is empty. *)
Example whole_blocks : block_indices 2 4 2 = [] /\ zrange 0 (1 + 4 / 2) = [0; 1; 2]%Z.
Proof. split; reflexivity. Qed.

Print Assumptions C46_blocks.
Print Assumptions C46_smoothing_lengths.
Print Assumptions C46_distances.
Print Assumptions C46_block_size_irrelevant.
Print Assumptions C46_rejected.
Print Assumptions C59_nearest.
Print Assumptions C59_not_periodic.

(** Theorems about nearest-neighbour slices of datasets loaded with a mask (C140). *)
From Coq Require Import String List ZArith QArith Qreals Reals Bool Lia Lra Psatz.
From Verif Require Import Base BaseLemmas RangesModel RangesSpec RangesProofs SortModel SortProofs
  MaskModel MaskSpec MaskProofs MaskHistProofs MaskTheorems ReaderModel ReaderSpec ReaderProofs ReaderTheorems.
From Verif Require Import VisModel VisSpec RotModel HsmlModel FrontModel FrontSpec FrontTheorems SeenSpec SeenProofs SeenFrontSpec
  GetModel GetSpec GetTheorems PipeModel PipeSpec PipeTheorems NearModel NearSpec NearTheorems NearPipeSpec.
Import ListNotations.
Open Scope R_scope.

Lemma needed_below : forall len d k i, 0 < d -> needed len d k -> (i < k)%Z -> IZR i * d < len.
Proof.
  intros len d k i Hd (A & _) H. assert (IZR i <= IZR k - 1) by (rewrite <- minus_IZR; apply IZR_le; lia).
  apply Rle_lt_trans with ((IZR k - 1) * d); [apply Rmult_le_compat_r; lra|exact A].
Qed.

Lemma needed_same : forall len d k l, 0 < d -> needed len d k -> needed len d l -> k = l.
Proof.
  assert (H : forall len d k l, 0 < d -> needed len d k -> needed len d l -> (k <= l)%Z).
  { intros len d k l Hd Hk (_ & B). destruct (Z.le_gt_cases k l) as [X|X]; [exact X|].
    pose proof (needed_below len d k l Hd Hk X). lra. }
  intros len d k l Hd A B. apply Z.le_antisymm; eapply H; eauto.
Qed.

Lemma without_in : forall A (P : A -> Prop) ps qs, without P ps qs -> forall p, In p ps -> P p -> In p qs.
Proof.
  intros A P ps qs H. induction H as [|p ps qs H IH|p ps qs N H IH]; intros q Hq Pq; [destruct Hq| |].
  - destruct Hq as [<-|Hq]; [left; reflexivity|right; apply IH; assumption].
  - destruct Hq as [<-|Hq]; [contradiction|apply IH; assumption].
Qed.

(** * Slices of some of the particles *)

(** With a particle of each pixel at most [w] away from its middle, the particles that are that near to some
    pixel make the picture. *)
Theorem C140_grid : forall a coords f n z_slice periodic lx ly lz r rotation w ps qs,
  let t := match z_slice with Some z => z | None => 0 end
           + match rotation with Some (_, c) => at_z c | None => 0 end in
  0 < a -> (1 <= n)%Z -> 0 < x_extent r -> 0 < y_extent r ->
  (periodic = true -> rotation = None /\ 0 < lx /\ 0 < ly /\ 0 < lz) ->
  (forall p, In p ps -> p_h p <> 0) -> incl qs ps ->
  (forall p, In p ps -> close_to_some periodic (lx, ly, lz) rotation r n t w p -> In p qs) ->
  (forall i j, pixel r n i j -> exists p, In p ps /\ close periodic (lx, ly, lz) rotation r n t w i j p) ->
  settled periodic (lx, ly, lz) rotation r n t ps ->
  same_picture (drawn (near_slice a coords (Some f) n z_slice periodic (lx, ly, lz) (Some r) rotation None ps))
               (drawn (near_slice a coords (Some f) n z_slice periodic (lx, ly, lz) (Some r) rotation None qs)).
Proof.
  intros a coords f n z_slice periodic lx ly lz r rotation w ps qs t Ha Hn Hx Hy Hp Hh Hi Hk Hc Hs.
  assert (Hd : 0 < extent r / IZR n).
  { apply Rdiv_lt_0_compat; [exact (extent_pos r Hx)|apply IZR_lt; lia]. }
  assert (Corner : pixel r n 0 0) by (unfold pixel; cbv zeta; rewrite !Rmult_0_l; repeat split; try lia; assumption).
  destruct (Hc _ _ Corner) as (p0 & I0 & C0).
  assert (J0 : In p0 qs) by (apply Hk; [exact I0|]; exists 0%Z, 0%Z; split; assumption).
  destruct (C124_slice a coords f n z_slice periodic lx ly lz r rotation None ps ps) as (rows & cols & img & E & N1 & N2 & V);
    auto; try reflexivity; [intros ->; destruct I0|].
  destruct (C124_slice a coords f n z_slice periodic lx ly lz r rotation None qs qs) as (rows' & cols' & img' & E' & N1' & N2' & V');
    auto; try reflexivity; [intros ->; destruct J0|].
  rewrite (needed_same _ _ _ _ Hd N1' N1) in *. rewrite (needed_same _ _ _ _ Hd N2' N2) in *.
  exists [rows; cols], img, img'. split; [exact E|]. split; [exact E'|].
  intros c Hb. apply in_bounds2 in Hb. destruct Hb as (i & j & -> & Bi & Bj).
  assert (Px : pixel r n i j).
  { unfold pixel. cbv zeta. repeat split; try lia; [apply (needed_below _ _ rows)|apply (needed_below _ _ cols)]; auto; lia. }
  destruct (V i j Bi Bj) as (p & Np & Vp). destruct (V' i j Bi Bj) as (p' & Np' & Vp'). cbv zeta in *.
  apply (Rmult_eq_reg_r (length_factor a coords f ^ 3)); [|apply Rgt_not_eq, factor_pos; exact Ha].
  rewrite Vp, Vp'.
  apply (C124_part _ _ _ _ _ _ ps qs p p' p Np Np' Hi Np).
  - apply Hk; [exact (proj1 Np)|]. exists i, j. split; [exact Px|].
    destruct (Hc i j Px) as (q & Iq & qa & qb & qc & Cq & Lq). destruct Np as (Ip & pa & pb & pc & Cp & Mp).
    exists pa, pb, pc. split; [exact Cp|]. eapply Rle_trans; [exact (Mp q qa qb qc Iq Cq)|exact Lq].
  - intros s s' Ns Ns'. exact (Hs i j s s' Px Ns Ns').
Qed.

(** * Loaded groups *)

Lemma cube_once : forall x y : R, x * x * x = y * y * y -> x = y.
Proof.
  intros x y E. assert (F : (x - y) * (x * x + x * y + y * y) = 0) by (ring_simplify; lra).
  apply Rmult_integral in F. destruct F as [F|F]; [lra|].
  assert (S : (x + y / 2) * (x + y / 2) + 3 / 4 * (y * y) = 0) by (rewrite <- F; field).
  pose proof (Rle_0_sqr (x + y / 2)) as A. pose proof (Rle_0_sqr y) as B. unfold Rsqr in A, B.
  assert (Hy : y * y = 0) by lra. assert (y = 0) by (apply Rmult_integral in Hy; tauto). subst y.
  assert (Hx : x * x = 0) by (rewrite <- F; ring). apply Rmult_integral in Hx. tauto.
Qed.

Lemma volumes_give : forall data c ps, holds data "volumes" (Ok (array_of c (map (fun p => p_h p * p_h p * p_h p) ps))) ->
  get_hsml_nearest data = Ok (map p_h ps).
Proof.
  intros data c ps H. destruct (proj1 (C103_nearest data) c _ H) as (hs & -> & F). f_equal. clear H.
  revert hs F. induction ps as [|p ps IH]; intros hs F; cbn [map] in F; inversion F as [|? h ? hs' Eh F']; [reflexivity|].
  subst. cbn [map]. rewrite (IH _ F'). f_equal. apply cube_once. exact Eh.
Qed.

(** The slice of the loaded group: the mask keeps the particles near some pixel. *)
Theorem C140_slice :
  forall argsort mm st k mk s junk a z_slice lx ly lz fs l r w f coords cv ps,
  is_argsort argsort -> wf_meta mm -> reachable mm st ->
  nth_error (mm_keys mm) k = Some mk -> cells_tile 0 (key_cells mk) (key_total mk) -> zlen ps = key_total mk ->
  file_of fs (l_project l) (Some f) coords ps -> stores fs "volumes" cv (map (fun p => [p_h p * p_h p * p_h p]) ps) ->
  l_backend l = "nearest_neighbours"%string ->
  l_region l = Some r -> l_mask l = None -> 0 < a -> (1 <= l_resolution l)%Z -> 0 < x_extent r -> 0 < y_extent r ->
  (l_periodic l = true -> l_rotation l = None /\ 0 < lx /\ 0 < ly /\ 0 < lz) ->
  (forall p, In p ps -> p_h p <> 0) ->
  let t := match z_slice with Some z => z | None => 0 end
           + match l_rotation l with Some (_, c) => at_z c | None => 0 end in
  keeps st k (close_to_some (l_periodic l) (lx, ly, lz) (l_rotation l) r (l_resolution l) t w) ps ->
  (forall i j, pixel r (l_resolution l) i j ->
     exists p, In p ps /\ close (l_periodic l) (lx, ly, lz) (l_rotation l) r (l_resolution l) t w i j p) ->
  settled (l_periodic l) (lx, ly, lz) (l_rotation l) r (l_resolution l) t ps ->
  same_picture (drawn (slice_pixel_grid s junk a z_slice (lx, ly, lz) (load_group argsort None k fs) l))
               (drawn (slice_pixel_grid s junk a z_slice (lx, ly, lz) (load_group argsort (Some st) k fs) l)).
Proof.
  intros argsort mm st k mk s junk a z_slice lx ly lz fs l r w f coords cv ps Harg Hw Hr Hk Ht Hps (Hm & Hc) Hv Hb El Em Ha Hn Hx Hy Hp Hh t K Cl St.
  rewrite (C103_slice s junk a z_slice (lx, ly, lz) (load_group argsort None k fs) l (Some f) coords (map p_m ps) ps); auto.
  - rewrite (C103_slice s junk a z_slice (lx, ly, lz) (load_group argsort (Some st) k fs) l (Some f) coords
      (map p_m (PipeTheorems.kept st k ps)) (PipeTheorems.kept st k ps)); auto.
    + rewrite El, Em, Hb. apply (C140_grid a coords f (l_resolution l) z_slice (l_periodic l) lx ly lz r (l_rotation l) w); auto.
      * intros p. apply (kept_in mm st k mk Hw Hr Hk Ht). exact Hps.
      * apply without_in. apply (kept_without mm st k mk Hw Hr Hk Ht); assumption.
    + apply (masked_weights argsort mm st k mk Harg Hw Hr Hk Ht); assumption.
    + apply (masked_places argsort mm st k mk Harg Hw Hr Hk Ht); assumption.
    + right. split; [exact Hb|]. apply (volumes_give _ cv). apply (masked_numbers argsort mm st k mk Harg Hw Hr Hk Ht); assumption.
  - apply whole_weights. exact Hm.
  - apply whole_places. exact Hc.
  - right. split; [exact Hb|]. apply (volumes_give _ cv). apply whole_numbers. exact Hv.
Qed.

(** * Spatial masks *)

Lemma dist3_parts : forall x y z u v q w, dist3 x y z u v q <= w -> Rabs (x - u) <= w /\ Rabs (y - v) <= w /\ Rabs (z - q) <= w.
Proof.
  intros x y z u v q w H. unfold dist3 in H.
  assert (S : forall e s, e * e <= s -> sqrt s <= w -> Rabs e <= w).
  { intros e s Le Hs. apply Rle_trans with (sqrt s); [|exact Hs]. rewrite <- sqrt_Rsqr_abs. apply sqrt_le_1_alt. exact Le. }
  pose proof (Rle_0_sqr (x - u)). pose proof (Rle_0_sqr (y - v)). pose proof (Rle_0_sqr (z - q)). unfold Rsqr in *.
  repeat split; (eapply S; [|exact H]); lra.
Qed.

Lemma in_abs : forall x w, Rabs x <= w -> - w <= x <= w.
Proof. intros x w H. unfold Rabs in H. destruct (Rcase_abs x); lra. Qed.

Lemma middle_inside : forall lo ext n i, (1 <= n)%Z -> (0 <= i)%Z -> 0 < ext -> IZR i * (ext / IZR n) < ext ->
  lo <= lo + (IZR i + / 2) * (ext / IZR n) <= lo + ext.
Proof.
  intros lo ext n i Hn Hi He L. assert (Np : 0 < IZR n) by (apply IZR_lt; lia).
  assert (Hd : 0 < ext / IZR n) by (apply Rdiv_lt_0_compat; assumption).
  assert (Ee : IZR n * (ext / IZR n) = ext) by (field; lra).
  assert (I0 : 0 <= IZR i) by (apply IZR_le; exact Hi).
  assert (Lt : (i < n)%Z).
  { apply lt_IZR. apply (Rmult_lt_reg_r (ext / IZR n)); lra. }
  assert (I1 : IZR i + 1 <= IZR n) by (rewrite <- plus_IZR; apply IZR_le; lia).
  split.
  - assert (0 <= (IZR i + / 2) * (ext / IZR n)) by (apply Rmult_le_pos; lra). lra.
  - assert ((IZR i + / 2) * (ext / IZR n) <= IZR n * (ext / IZR n)) by (apply Rmult_le_compat_r; lra). lra.
Qed.

(** A mask of a region that holds that of the picture and its height, widened by more than the distance of the
    furthest nearest particle, gives the slice of all of the particles. *)
Theorem C140_spatial :
  forall argsort mm k mk s junk a z_slice fs l r w bx by_ bz union f coords cv ps,
  is_argsort argsort -> wf_meta mm -> Forall cells_disjoint (mm_keys mm) ->
  nth_error (mm_keys mm) k = Some mk -> cells_tile 0 (key_cells mk) (key_total mk) -> zlen ps = key_total mk ->
  file_of fs (l_project l) (Some f) coords ps -> stores fs "volumes" cv (map (fun p => [p_h p * p_h p * p_h p]) ps) ->
  (forall i p, nth_error ps i = Some p -> in_its_cell (mm_box mm) mk (Z.of_nat i) p) ->
  l_backend l = "nearest_neighbours"%string ->
  l_region l = Some r -> l_mask l = None -> 0 < a -> (1 <= l_resolution l)%Z -> 0 < x_extent r -> 0 < y_extent r ->
  l_periodic l = true -> l_rotation l = None ->
  (forall p, In p ps -> p_h p <> 0) ->
  well_formed_region [bx; by_; bz] -> region_in_window (mm_box mm) [bx; by_; bz] ->
  let t := match z_slice with Some z => z | None => 0 end in
  widened (r_xmin r) (r_xmin r + extent r) w bx -> widened (r_ymin r) (r_ymin r + extent r) w by_ -> widened t t w bz ->
  (forall i j, pixel r (l_resolution l) i j ->
     exists p, In p ps /\ close true (real_box (mm_box mm)) None r (l_resolution l) t w i j p) ->
  settled true (real_box (mm_box mm)) None r (l_resolution l) t ps ->
  exists st, constrain_spatial mm [bx; by_; bz] union (new_mask mm) = (st, None) /\
  same_picture (drawn (slice_pixel_grid s junk a z_slice (real_box (mm_box mm)) (load_group argsort None k fs) l))
               (drawn (slice_pixel_grid s junk a z_slice (real_box (mm_box mm)) (load_group argsort (Some st) k fs) l)).
Proof.
  intros argsort mm k mk s junk a z_slice fs l r w bx by_ bz union f coords cv ps Harg Hw Hd Hk Ht Hps Hf Hv Cells Hb El Em Ha Hn Hx Hy Ep Er Hh Wr Win t Wx Wy Wz Cl St.
  assert (Mx : x_extent r <= extent r) by apply Rmax_l. assert (My : y_extent r <= extent r) by apply Rmax_r.
  destruct (spatial_keeps mm k mk [bx; by_; bz] union
    (close_to_some true (real_box (mm_box mm)) None r (l_resolution l) t w) ps) as (st & E & Rst & K); auto.
  - intros p pos Ip Ex Ey Ez (i & j & (Pi & Pj & Pu & Pv) & ca & cb & cc & _ & Aw).
    unfold away, real_box, at_x, at_y, at_z, FrontSpec.seen, position, middle_x, middle_y in Aw. cbn [fst snd] in Aw.
    apply dist3_parts in Aw. destruct Aw as (A & B & C). rewrite Ex in A. rewrite Ey in B. rewrite Ez in C.
    pose proof (middle_inside (r_xmin r) (extent r) (l_resolution l) i Hn Pi ltac:(lra) ltac:(lra)) as Ix.
    pose proof (middle_inside (r_ymin r) (extent r) (l_resolution l) j Hn Pj ltac:(lra) ltac:(lra)) as Iy.
    apply in_abs in A. apply in_abs in B. apply in_abs in C.
    cbn [inside_region]. repeat split.
    + apply (reaches_inside _ _ _ _ w w _ (Rle_refl w) Wx). exists ca. lra.
    + apply (reaches_inside _ _ _ _ w w _ (Rle_refl w) Wy). exists cb. lra.
    + apply (reaches_inside _ _ _ _ w w _ (Rle_refl w) Wz). exists cc. lra.
  - exists st. split; [exact E|]. pose proof Hw as (Hbox & _). unfold real_box in *.
    apply (C140_slice argsort mm st k mk s junk a z_slice _ _ _ fs l r w f coords cv ps); auto.
    + intros _. split; [exact Er|]. repeat split; replace 0 with (Q2R 0) by apply RMicromega.Q2R_0; apply Qlt_Rlt, Hbox.
    + rewrite Ep, Er, Rplus_0_r. exact K.
    + rewrite Ep, Er, Rplus_0_r. exact Cl.
    + rewrite Ep, Er, Rplus_0_r. exact St.
Qed.

(** A mask that keeps no particle leaves nothing to slice: the tree's query answers with an index past the end. *)
Theorem C140_empty :
  forall argsort mm st k mk s junk a z_slice lx ly lz fs l r f coords cv ps,
  is_argsort argsort -> wf_meta mm -> reachable mm st ->
  nth_error (mm_keys mm) k = Some mk -> cells_tile 0 (key_cells mk) (key_total mk) -> zlen ps = key_total mk ->
  file_of fs (l_project l) f coords ps -> stores fs "volumes" cv (map (fun p => [p_h p * p_h p * p_h p]) ps) ->
  l_backend l = "nearest_neighbours"%string -> l_region l = Some r -> l_mask l = None ->
  (l_periodic l = true -> l_rotation l = None) ->
  (forall i, ~ selected st k i) ->
  slice_pixel_grid s junk a z_slice (lx, ly, lz) (load_group argsort (Some st) k fs) l = Err IndexError.
Proof.
  intros argsort mm st k mk s junk a z_slice lx ly lz fs l r f coords cv ps Harg Hw Hr Hk Ht Hps (Hm & Hc) Hv Hb El Em Hp No.
  assert (K0 : PipeTheorems.kept st k ps = []).
  { unfold PipeTheorems.kept. unfold selected in No. destruct (masked_rows (ms_masks st) k) as [|i rows]; [reflexivity|].
    exfalso. apply (No i). left. reflexivity. }
  rewrite (C103_slice s junk a z_slice (lx, ly, lz) (load_group argsort (Some st) k fs) l f coords
    (map p_m (PipeTheorems.kept st k ps)) (PipeTheorems.kept st k ps)); auto.
  - rewrite El, Em, Hb, K0. apply (C124_none a coords f (l_resolution l) z_slice (l_periodic l) lx ly lz r (l_rotation l) None []); [exact Hp|reflexivity].
  - apply (masked_weights argsort mm st k mk Harg Hw Hr Hk Ht); assumption.
  - apply (masked_places argsort mm st k mk Harg Hw Hr Hk Ht); assumption.
  - right. split; [exact Hb|]. apply (volumes_give _ cv). apply (masked_numbers argsort mm st k mk Harg Hw Hr Hk Ht); assumption.
Qed.

(** * Cases *)

Definition near_fields (ps : list part) : list stored :=
  [mkstored "coordinates" (Some true) (mk_field Contiguous true 3 (map (fun p => [p_x p; p_y p; p_z p]) ps));
   mkstored "masses" (Some true) (mk_field (Chunked 4) false 1 (map (fun p => [p_m p]) ps));
   mkstored "volumes" (Some true) (mk_field Contiguous false 1 (map (fun p => [p_h p * p_h p * p_h p]) ps))]%string.

Lemma near_file : forall ps, file_of (near_fields ps) (Some "masses"%string) (Some true) true ps
  /\ stores (near_fields ps) "volumes" (Some true) (map (fun p => [p_h p * p_h p * p_h p]) ps).
Proof.
  assert (W : forall (ps : list part), Forall (fun r : list R => zlen r = 3%Z) (map (fun p => [p_x p; p_y p; p_z p]) ps)).
  { induction ps; cbn [map]; constructor; auto. }
  intro ps. unfold file_of, weighs, stores, near_fields. split; [split; [split|]|].
  - cbn. repeat split; discriminate.
  - eexists [_], _, [_]. split; [reflexivity|]. cbn [map st_name In fd_layout fd_rows field_of]. repeat split; try discriminate.
    + intros [X|[]]; discriminate.
    + intros c [= <-]. reflexivity.
  - eexists [], _, [_; _]. split; [reflexivity|]. cbn [map st_name In fd_layout fd_rows field_of]. repeat split; try discriminate; auto.
    intros _. apply W.
  - eexists [_; _], _, []. split; [reflexivity|]. cbn [map st_name In fd_layout fd_rows field_of]. repeat split; try discriminate.
    intros [X|[X|[]]]; discriminate.
Qed.

Definition near_look (n : Z) (r : region) (periodic : bool) : look :=
  mklook n (Some "masses"%string) (Some r) None None true "nearest_neighbours"%string periodic.
Definition small : region := mkregion (3 / 8) (5 / 8) (3 / 8) (5 / 8) None.

Lemma small_extent : x_extent small = 1 / 4 /\ y_extent small = 1 / 4 /\ extent small = 1 / 4.
Proof. unfold extent, x_extent, y_extent, small. cbn [r_xmin r_xmax r_ymin r_ymax]. rewrite Rmax_left by lra. repeat split; lra. Qed.

Lemma small_pixel : forall i j, pixel small 2 i j ->
  7 / 16 <= middle_x small 2 i <= 9 / 16 /\ 7 / 16 <= middle_y small 2 j <= 9 / 16.
Proof.
  intros i j (Hi & Hj & A & B). unfold middle_x, middle_y. destruct small_extent as (X & Y & E). rewrite X, E in A. rewrite Y, E in B. rewrite E.
  assert (Li : (i < 2)%Z) by (apply lt_IZR; lra). assert (Lj : (j < 2)%Z) by (apply lt_IZR; lra).
  assert (0 <= IZR i <= 1) by (split; apply IZR_le; lia). assert (0 <= IZR j <= 1) by (split; apply IZR_le; lia).
  cbn [small r_xmin r_ymin]. lra.
Qed.

Example C140_case : forall s argsort, is_argsort argsort ->
  exists st, constrain_spatial pipe_mm [Some [1 # 8; 7 # 8]; Some [1 # 8; 7 # 8]; None]%Q false (new_mask pipe_mm) = (st, None)
  /\ masked_rows (ms_masks st) 0 = [0%Z]
  /\ same_picture
       (drawn (slice_pixel_grid s (fun _ => 0) 1 (Some (1 / 2)) (real_box (v3 2 2 2)) (load_group argsort None 0 (near_fields pipe_parts)) (near_look 2 small true)))
       (drawn (slice_pixel_grid s (fun _ => 0) 1 (Some (1 / 2)) (real_box (v3 2 2 2)) (load_group argsort (Some st) 0 (near_fields pipe_parts)) (near_look 2 small true))).
Proof.
  intros s argsort Harg. destruct small_extent as (X & Y & E).
  assert (W : wf_meta pipe_mm) by exact (pipe_wf 1 1).
  assert (B2 : real_box (v3 2 2 2) = (2, 2, 2)) by (unfold real_box, v3, Q2R; cbn; repeat (apply (f_equal2 pair); [|lra]); lra).
  set (p1 := mkpart (1 / 2) (1 / 2) (1 / 2) 3 (1 / 64)). set (p2 := mkpart (3 / 2) (1 / 2) (1 / 2) 5 (1 / 64)).
  assert (Near : forall i j, pixel small 2 i j -> away (2, 2, 2) None (middle_x small 2 i) (middle_y small 2 j) (1 / 2) p1 0 0 0 <= 1 / 8).
  { intros i j Px. apply small_pixel in Px. unfold away, dist3, at_x, at_y, at_z, FrontSpec.seen, position, p1. cbn [fst snd p_x p_y p_z].
    set (u := middle_x small 2 i) in *. set (v := middle_y small 2 j) in *.
    apply Rle_trans with (sqrt (1 / 8 * (1 / 8))); [|rewrite sqrt_square; lra]. apply sqrt_le_1_alt.
    replace (u - (1 / 2 + 0 * 2)) with (u - 1 / 2) by ring. replace (v - (1 / 2 + 0 * 2)) with (v - 1 / 2) by ring.
    assert ((u - 1 / 2) * (u - 1 / 2) <= 1 / 16 * (1 / 16)) by nra. assert ((v - 1 / 2) * (v - 1 / 2) <= 1 / 16 * (1 / 16)) by nra. lra. }
  assert (Far : forall i j q, pixel small 2 i j -> nearest_to true (2, 2, 2) None (middle_x small 2 i) (middle_y small 2 j) (1 / 2) [p1; p2] q -> q = p1).
  { intros i j q Px ([<-|[<-|[]]] & ca & cb & cc & _ & M); [reflexivity|exfalso].
    specialize (M p1 0%Z 0%Z 0%Z (or_introl eq_refl) (or_introl eq_refl)). pose proof (Near i j Px) as N.
    apply (Rle_trans _ _ _ M) in N. unfold away in N. apply dist3_parts in N. destruct N as (N & _). apply in_abs in N.
    apply small_pixel in Px. unfold at_x, FrontSpec.seen, position, p2 in N. cbn [fst snd p_x] in N.
    assert (Lo : -1 < IZR ca) by lra. assert (Hi : IZR ca < 0) by lra. apply lt_IZR in Lo. apply lt_IZR in Hi. lia. }
  destruct (C140_spatial argsort pipe_mm 0 (mk_mask_key [ex_left 0 1; ex_right 1 1] 2) s (fun _ => 0) 1 (Some (1 / 2)) (near_fields pipe_parts)
    (near_look 2 small true) small (1 / 8) (Some [1 # 8; 7 # 8]%Q) (Some [1 # 8; 7 # 8]%Q) None false true true (Some true) pipe_parts) as (st & Es & P);
    auto; try reflexivity; try exact I; rewrite ?X, ?Y; try lra.
  - repeat constructor. intros i (A & B). unfold stored_in in *. cbn in *. lia.
  - cbn. repeat split; lia.
  - apply near_file.
  - apply near_file.
  - intros [|[|i]] p Ep; cbn in Ep; [injection Ep as <-|injection Ep as <-|destruct i; discriminate].
    + exists (ex_left 0 1), (v3 (1 # 2) (1 # 2) (1 # 2)). split; [left; reflexivity|]. split; [unfold stored_in; cbn; lia|].
      split; [intros []; unfold ex_left; cbn; unfold Qle, Qlt; cbn; lia|].
      split; [intros []; exists 0%Z; unfold ex_left; cbn; unfold Qle; cbn; lia|].
      repeat split; unfold Q2R; cbn; lra.
    + exists (ex_right 1 1), (v3 (3 # 2) (1 # 2) (1 # 2)). split; [right; left; reflexivity|]. split; [unfold stored_in; cbn; lia|].
      split; [intros []; unfold ex_right; cbn; unfold Qle, Qlt; cbn; lia|].
      split; [intros []; exists 0%Z; unfold ex_right; cbn; unfold Qle; cbn; lia|].
      repeat split; unfold Q2R; cbn; lra.
  - cbn. lia.
  - intros p [<-|[<-|[]]]; cbn [p_h]; lra.
  - split; [reflexivity|]. intros x [<-|[<-|[<-|[]]]]; cbn; auto.
  - cbn. repeat split; repeat constructor; unfold Qle; cbn; lia.
  - cbn [widened small r_xmin]. rewrite E. unfold Q2R. cbn [Qnum Qden]. lra.
  - cbn [widened small r_ymin]. rewrite E. unfold Q2R. cbn [Qnum Qden]. lra.
  - intros i j Px. cbn [l_resolution near_look] in Px. change (mm_box pipe_mm) with (v3 2 2 2). rewrite B2.
    exists p1. split; [left; reflexivity|]. exists 0%Z, 0%Z, 0%Z. split; [left; reflexivity|]. apply Near. exact Px.
  - change (mm_box pipe_mm) with (v3 2 2 2). rewrite B2. intros i j p q Px Np Nq.
    cbn [l_resolution near_look] in *. rewrite (Far i j p Px Np), (Far i j q Px Nq). reflexivity.
  - exists st. split; [exact Es|]. split; [|exact P].
    assert (Est : st = fst (constrain_spatial pipe_mm [Some [1 # 8; 7 # 8]; Some [1 # 8; 7 # 8]; None]%Q false (new_mask pipe_mm))) by (rewrite Es; reflexivity).
    rewrite Est. vm_compute. reflexivity.
Qed.

(** Without a particle near each pixel the mask has to be wider: the nearest particle is in the cell beside the
    picture, and the mask of the picture leaves it out. *)
Definition above : part := mkpart (1 / 2) (1 / 2) (3 / 2) 3 1.
Definition beside_it : part := mkpart (5 / 4) (1 / 2) (1 / 2) 5 1.

Theorem C140_no_margin_refuted : forall argsort s junk, is_argsort argsort ->
  exists st, constrain_spatial pipe_mm [Some [3 # 8; 5 # 8]; Some [3 # 8; 5 # 8]; None]%Q false (new_mask pipe_mm) = (st, None)
  /\ exists f g, drawn (slice_pixel_grid s junk 1 (Some (1 / 2)) (2, 2, 2) (load_group argsort None 0 (near_fields [above; beside_it])) (near_look 1 small false))
     = Ok (mkpicture [1; 1]%Z f)
  /\ drawn (slice_pixel_grid s junk 1 (Some (1 / 2)) (2, 2, 2) (load_group argsort (Some st) 0 (near_fields [above; beside_it])) (near_look 1 small false))
     = Ok (mkpicture [1; 1]%Z g)
  /\ f [0; 0]%Z = 5 /\ g [0; 0]%Z = 3.
Proof.
  intros argsort s junk Harg. set (reg := [Some [3 # 8; 5 # 8]; Some [3 # 8; 5 # 8]; None]%Q).
  destruct (constrain_spatial pipe_mm reg false (new_mask pipe_mm)) as (st & e) eqn:E.
  assert (Ee : e = None) by (transitivity (snd (constrain_spatial pipe_mm reg false (new_mask pipe_mm)));
    [rewrite E; reflexivity|vm_compute; reflexivity]). subst e. exists st. split; [reflexivity|].
  assert (Er : masked_rows (ms_masks st) 0 = [0%Z]).
  { transitivity (masked_rows (ms_masks (fst (constrain_spatial pipe_mm reg false (new_mask pipe_mm)))) 0);
    [rewrite E; reflexivity|vm_compute; reflexivity]. }
  assert (W : wf_meta pipe_mm) by exact (pipe_wf 1 1).
  assert (Rst : reachable pipe_mm st).
  { exists [OpSpatial reg false]. split; [repeat constructor|]. cbn [mask_run mask_step fst snd]. rewrite E. reflexivity. }
  set (mk := mk_mask_key [ex_left 0 1; ex_right 1 1] 2).
  assert (Hk : nth_error (mm_keys pipe_mm) 0 = Some mk) by reflexivity.
  assert (Ht : cells_tile 0 (key_cells mk) (key_total mk)) by (cbn; repeat split; lia).
  assert (Hps : zlen [above; beside_it] = key_total mk) by reflexivity.
  destruct (near_file [above; beside_it]) as ((Hm & Hc) & Hv).
  assert (K0 : PipeTheorems.kept st 0 [above; beside_it] = [above]) by (unfold PipeTheorems.kept; rewrite Er; reflexivity).
  set (ps := [above; beside_it]) in *.
  rewrite (C103_slice s junk 1 (Some (1 / 2)) (2, 2, 2) (load_group argsort None 0 (near_fields ps)) (near_look 1 small false) (Some true) true (map p_m ps) ps);
    [|apply whole_weights; exact Hm|reflexivity|apply whole_places; exact Hc
     |right; split; [reflexivity|]; apply (volumes_give _ (Some true)), whole_numbers; exact Hv].
  rewrite (C103_slice s junk 1 (Some (1 / 2)) (2, 2, 2) (load_group argsort (Some st) 0 (near_fields ps)) (near_look 1 small false) (Some true) true
      (map p_m (PipeTheorems.kept st 0 ps)) (PipeTheorems.kept st 0 ps));
    [|apply (masked_weights argsort pipe_mm st 0 _ Harg W Rst Hk Ht _ _ Hps); exact Hm|reflexivity
     |apply (masked_places argsort pipe_mm st 0 _ Harg W Rst Hk Ht _ _ Hps); exact Hc
     |right; split; [reflexivity|]; apply (volumes_give _ (Some true)), (masked_numbers argsort pipe_mm st 0 _ Harg W Rst Hk Ht _ _ Hps); exact Hv].
  rewrite K0. clear K0. destruct small_extent as (X & Y & Ex).
  assert (One : forall k, needed (1 / 4) (1 / 4 / 1) k -> k = 1%Z).
  { intros k (A & B). assert (L : 0 < IZR k) by lra. assert (U : IZR k < 2) by lra. apply lt_IZR in L. apply lt_IZR in U. lia. }
  assert (G : forall qs, qs <> [] -> incl qs ps -> exists img,
    drawn (near_slice 1 true (Some true) 1 (Some (1 / 2)) false (2, 2, 2) (Some small) None None qs) = Ok (mkpicture [1; 1]%Z img)
    /\ exists p, nearest_to false (2, 2, 2) None (1 / 2) (1 / 2) (1 / 2) qs p /\ img [0; 0]%Z = p_m p).
  { intros qs Hq Hi. destruct (C124_slice 1 true true 1 (Some (1 / 2)) false 2 2 2 small None None qs qs) as (rows & cols & img & Ed & N1 & N2 & V);
      rewrite ?X, ?Y; try lra; try lia; auto; try reflexivity.
    { intros p Ip. apply Hi in Ip. destruct Ip as [<-|[<-|[]]]; cbn; lra. }
    rewrite X, Ex in N1. rewrite Y, Ex in N2. apply One in N1. apply One in N2. subst rows cols. exists img. split; [exact Ed|].
    destruct (V 0%Z 0%Z) as (p & Np & Vp); try lia. cbv zeta in *. exists p.
    cbn [small r_xmin r_ymin] in Np. rewrite Ex in Np. replace (3 / 8 + (0 + / 2) * (1 / 4 / 1)) with (1 / 2) in Np by lra.
    rewrite Rplus_0_r in Np. split; [exact Np|]. unfold length_factor in Vp.
    assert (p_h p = 1) by (destruct Np as (Ip & _); apply Hi in Ip; destruct Ip as [<-|[<-|[]]]; reflexivity).
    rewrite H in Vp. lra. }
  destruct (G ps) as (img & Ei & p & Np & Vp); [discriminate|apply incl_refl|].
  destruct (G [above]) as (img' & Ei' & p' & Np' & Vp'); [discriminate|intros x [<-|[]]; left; reflexivity|].
  exists img, img'. split; [exact Ei|]. split; [exact Ei'|]. split.
  - rewrite Vp. destruct Np as ([<-|[<-|[]]] & a & b & c & [F|(-> & -> & ->)] & M); try discriminate; [exfalso|reflexivity].
    specialize (M beside_it 0%Z 0%Z 0%Z (or_intror (or_introl eq_refl)) (or_intror (conj eq_refl (conj eq_refl eq_refl)))).
    unfold away, dist3, at_x, at_y, at_z, FrontSpec.seen, position, above, beside_it in M. cbn [fst snd p_x p_y p_z] in M.
    apply sqrt_le_0 in M; lra.
  - rewrite Vp'. destruct Np' as ([<-|[]] & _). reflexivity.
Qed.

Print Assumptions C140_grid.
Print Assumptions C140_slice.
Print Assumptions C140_spatial.
Print Assumptions C140_empty.
Print Assumptions C140_case.
Print Assumptions C140_no_margin_refuted.

(** Pictures do not depend on the frames of the lengths; lengths of other snapshots are refused. *)
From Coq Require Import List ZArith Reals Bool Lia Lra.
From Verif Require Import Base VisModel RotModel HsmlModel CosmoModel CosmoSpec CosmoProofs CosmoExprProofs RegionModel RegionProofs FrontModel FrameModel FrameSpec FrameProofs FrameScaleProofs.
Import ListNotations.
Open Scope R_scope.

Lemma parts_of_scale c xs : forall ys zs ms hs, parts_of (map (Rmult c) xs) (map (Rmult c) ys) (map (Rmult c) zs) ms (map (Rmult c) hs) = map (sc_part c) (parts_of xs ys zs ms hs).
Proof. induction xs as [|x xs IH]; intros [|y ys] [|z zs] [|m ms] [|h hs]; try reflexivity. cbn [map parts_of]. now rewrite IH. Qed.
Lemma triple_scale c v : length v = 3%nat -> triple (map (Rmult c) v) = sc_vec c (triple v).
Proof. destruct v as [|x [|y [|z [|? ?]]]]; try discriminate. reflexivity. Qed.
Lemma region_of_scale c v : region_of (map (Rmult c) v) = sc_region c (region_of v).
Proof. destruct v as [|x0 [|x1 [|y0 [|y1 [|z0 [|z1 [|? ?]]]]]]]; reflexivity. Qed.

Section Same.
Variable s : R.
Hypothesis s_pos : 0 < s.

Lemma Rpower_one : Rpower s 1 = s.
Proof. now apply Rpower_1. Qed.
Lemma numbers_pair x y : good s 1 x -> good s 1 y -> phys x = phys y -> numbers false y = map (Rmult s) (numbers true x).
Proof. intros X Y E. cbn [numbers]. rewrite <- E. pose proof (numbers_phys s true 1 x X) as H. cbn [unit_size numbers] in H. unfold unit_size in H. rewrite Rpower_one in H. exact H. Qed.
Lemma numbers_equal b x y : good s 1 x -> good s 1 y -> phys x = phys y -> numbers b x = numbers b y.
Proof. intros X Y E. apply (map_scale_inj (unit_size s b 1)); [apply unit_size_pos|]. now rewrite <- !numbers_phys. Qed.
Lemma stored_numbers b x : stored_in s b 1 x -> avals x = numbers b x.
Proof. intros [G C]. unfold numbers, phys, comov. rewrite C. now destruct b. Qed.

Definition stored_same (b1 b2 : bool) (ps1 ps2 : list part) : Prop :=
  forall f, In f [p_x; p_y; p_z] -> map (Rmult (unit_size s b1 1)) (map f ps1) = map (Rmult (unit_size s b2 1)) (map f ps2).
Definition rel (b1 b2 : bool) (o1 o2 : res (picture * list part)) : Prop :=
  match o1, o2 with
  | Ok (p1, ps1), Ok (p2, ps2) => pic_shape p1 = pic_shape p2 /\ (forall q, pic_image p1 q = pic_image p2 q) /\ stored_same b1 b2 ps1 ps2
  | Err e1, Err e2 => e1 = e2
  | _, _ => False
  end.
Lemma rel_refl b o : rel b b o o.
Proof. destruct o as [[p ps]|e]; cbn; [|reflexivity]. split; [reflexivity|]. split; [reflexivity|]. intros f _. reflexivity. Qed.
Lemma rel_sym b1 b2 o1 o2 : rel b1 b2 o1 o2 -> rel b2 b1 o2 o1.
Proof. destruct o1 as [[p1 ps1]|e1], o2 as [[p2 ps2]|e2]; cbn; try tauto; [|congruence]. intros (A & B & C). split; [congruence|]. split; [intros q; symmetry; apply B|]. intros f F. symmetry. now apply C. Qed.
Lemma rel_scale o1 o2 : same_out s o1 o2 -> rel true false o1 o2.
Proof.
  destruct o1 as [[p1 ps1]|e1], o2 as [[p2 ps2]|e2]; cbn; try tauto. intros (A & B & ->). split; [exact A|]. split; [exact B|]. intros f F. unfold unit_size. rewrite Rpower_one, map_one, map_map.
  destruct F as [<-|[<-|[<-|[]]]]; rewrite map_map; reflexivity.
Qed.

Lemma rel_matches j dim m b1 b2 o1 o2 g1 g2 : rel b1 b2 o1 o2 -> matches s b1 j dim m o1 g1 -> matches s b2 j dim m o2 g2 -> same_outcome g1 g2.
Proof.
  destruct o1 as [[p1 ps1]|e1], o2 as [[p2 ps2]|e2]; cbn [rel matches]; try tauto.
  - intros (A & B & C) (f1 & c1 & -> & S1 & I1 & L1 & M1 & X1 & Y1 & Z1 & VX1 & VY1 & VZ1) (f2 & c2 & -> & S2 & I2 & L2 & M2 & X2 & Y2 & Z2 & VX2 & VY2 & VZ2). cbn [same_outcome].
    split; [congruence|]. split; [intros q; rewrite I1, I2; apply B|]. split; [congruence|]. split; [congruence|].
    rewrite (num_phys s b1 1 (col0 c1) _ (conj X1 VX1)), (num_phys s b1 1 (col1 c1) _ (conj Y1 VY1)), (num_phys s b1 1 (col2 c1) _ (conj Z1 VZ1)), (num_phys s b2 1 (col0 c2) _ (conj X2 VX2)), (num_phys s b2 1 (col1 c2) _ (conj Y2 VY2)), (num_phys s b2 1 (col2 c2) _ (conj Z2 VZ2)).
    split; [apply C; cbn; auto|]. split; apply C; cbn; auto.
  - intros -> -> ->. reflexivity.
Qed.

Lemma particles_pair j n1 n2 d1 d2 : good_data s true j n1 d1 -> good_data s false j n2 d2 -> d_m d1 = d_m d2 -> same_lengths d1 d2 -> particles false d2 = map (sc_part s) (particles true d1).
Proof.
  intros D1 D2 M (X & Y & W & B & H). unfold particles. rewrite <- parts_of_scale. rewrite <- M.
  rewrite (stored_numbers _ _ (gd_x _ _ _ _ _ D1)), (stored_numbers _ _ (gd_y _ _ _ _ _ D1)), (stored_numbers _ _ (gd_z _ _ _ _ _ D1)), (stored_numbers _ _ (gd_x _ _ _ _ _ D2)), (stored_numbers _ _ (gd_y _ _ _ _ _ D2)), (stored_numbers _ _ (gd_z _ _ _ _ _ D2)).
  rewrite (numbers_pair _ _ (proj1 (gd_x _ _ _ _ _ D1)) (proj1 (gd_x _ _ _ _ _ D2)) X), (numbers_pair _ _ (proj1 (gd_y _ _ _ _ _ D1)) (proj1 (gd_y _ _ _ _ _ D2)) Y), (numbers_pair _ _ (proj1 (gd_z _ _ _ _ _ D1)) (proj1 (gd_z _ _ _ _ _ D2)) W), (numbers_pair _ _ (gd_h _ _ _ _ _ D1) (gd_h _ _ _ _ _ D2) H).
  reflexivity.
Qed.
Lemma particles_equal j b n1 n2 d1 d2 : good_data s b j n1 d1 -> good_data s b j n2 d2 -> d_m d1 = d_m d2 -> same_lengths d1 d2 -> particles b d2 = particles b d1.
Proof.
  intros D1 D2 M (X & Y & W & B & H). unfold particles. rewrite <- M.
  rewrite (stored_numbers _ _ (gd_x _ _ _ _ _ D1)), (stored_numbers _ _ (gd_y _ _ _ _ _ D1)), (stored_numbers _ _ (gd_z _ _ _ _ _ D1)), (stored_numbers _ _ (gd_x _ _ _ _ _ D2)), (stored_numbers _ _ (gd_y _ _ _ _ _ D2)), (stored_numbers _ _ (gd_z _ _ _ _ _ D2)).
  rewrite (numbers_equal b _ _ (proj1 (gd_x _ _ _ _ _ D1)) (proj1 (gd_x _ _ _ _ _ D2)) X), (numbers_equal b _ _ (proj1 (gd_y _ _ _ _ _ D1)) (proj1 (gd_y _ _ _ _ _ D2)) Y), (numbers_equal b _ _ (proj1 (gd_z _ _ _ _ _ D1)) (proj1 (gd_z _ _ _ _ _ D2)) W), (numbers_equal b _ _ (gd_h _ _ _ _ _ D1) (gd_h _ _ _ _ _ D2) H).
  reflexivity.
Qed.
Lemma box_pair x y : good s 1 x -> good s 1 y -> length (avals x) = 3%nat -> phys x = phys y -> triple (numbers false y) = sc_vec s (triple (numbers true x)).
Proof. intros X Y L E. rewrite (numbers_pair x y X Y E). apply triple_scale. now rewrite (numbers_length s true 1 x X). Qed.
Lemma region_pair r1 r2 : good_region s r1 -> good_region s r2 -> same_array r1 r2 -> region_numbers false r2 = sc_region s (region_numbers true r1).
Proof. destruct r1 as [x|], r2 as [y|]; cbn [good_region same_array]; try tauto. intros [X _] [Y _] E. unfold region_numbers. rewrite (numbers_pair x y X Y E). apply region_of_scale. Qed.
Lemma region_equal b r1 r2 : good_region s r1 -> good_region s r2 -> same_array r1 r2 -> region_numbers b r2 = region_numbers b r1.
Proof. destruct r1 as [x|], r2 as [y|]; cbn [good_region same_array]; try tauto. intros [X _] [Y _] E. unfold region_numbers. now rewrite (numbers_equal b x y X Y E). Qed.
Lemma rotation_pair r1 r2 : good_rotation s r1 -> good_rotation s r2 -> same_rotation r1 r2 -> rotation_numbers false r2 = sc_rotation s (rotation_numbers true r1).
Proof. destruct r1 as [[m x]|], r2 as [[m' y]|]; cbn [good_rotation same_rotation]; try tauto. intros [X L] [Y _] [<- E]. cbn [rotation_numbers sc_rotation]. now rewrite (box_pair x y X Y L E). Qed.
Lemma rotation_equal b r1 r2 : good_rotation s r1 -> good_rotation s r2 -> same_rotation r1 r2 -> rotation_numbers b r2 = rotation_numbers b r1.
Proof. destruct r1 as [[m x]|], r2 as [[m' y]|]; cbn [good_rotation same_rotation]; try tauto. intros [X L] [Y _] [<- E]. cbn [rotation_numbers]. now rewrite (numbers_equal b x y X Y E). Qed.
Lemma height_pair r1 r2 : good_height s r1 -> good_height s r2 -> same_array r1 r2 -> height_number false r2 = match height_number true r1 with None => None | Some z => Some (s * z) end.
Proof.
  destruct r1 as [x|], r2 as [y|]; cbn [good_height same_array]; try tauto. intros [X L] [Y _] E. unfold height_number. rewrite (numbers_pair x y X Y E). rewrite <- (numbers_length s true 1 x X) in L. destruct (numbers true x) as [|v ?]; [discriminate|reflexivity].
Qed.
Lemma height_equal b r1 r2 : good_height s r1 -> good_height s r2 -> same_array r1 r2 -> height_number b r2 = height_number b r1.
Proof. destruct r1 as [x|], r2 as [y|]; cbn [good_height same_array]; try tauto. intros [X L] [Y _] E. unfold height_number. now rewrite (numbers_equal b x y X Y E). Qed.

Lemma same_lengths_sym d1 d2 : same_lengths d1 d2 -> same_lengths d2 d1.
Proof. intros (A & B & C & D & E). repeat split; now symmetry. Qed.
Lemma same_array_sym x y : same_array x y -> same_array y x.
Proof. destruct x, y; cbn; auto. Qed.
Lemma same_rotation_sym x y : same_rotation x y -> same_rotation y x.
Proof. destruct x as [[? ?]|], y as [[? ?]|]; cbn; auto. intros [A B]. split; now symmetry. Qed.

Section Pairs.
Variables (j : R) (n1 n2 : nat) (b1 b2 : bool) (d1 d2 : fdata) (r1 r2 : option carr) (t1 t2 : option (mat * carr)).
Hypotheses (D1 : good_data s b1 j n1 d1) (D2 : good_data s b2 j n2 d2) (M : d_m d1 = d_m d2) (L : same_lengths d1 d2)
  (G1 : good_region s r1) (G2 : good_region s r2) (SR : same_array r1 r2) (T1 : good_rotation s t1) (T2 : good_rotation s t2) (ST : same_rotation t1 t2).

Lemma lift_rel (F : bool -> option bool -> vec -> option region -> option (mat * vec) -> list part -> res (picture * list part)) :
  (forall fr box r t ps, (b1 <> b2 -> box = triple (numbers true (if b1 then d_box d1 else d_box d2)) /\ r = region_numbers true (if b1 then r1 else r2)) ->
     b1 <> b2 -> same_out s (F true fr box r t ps) (F false fr (sc_vec s box) (sc_region s r) (sc_rotation s t) (map (sc_part s) ps))) ->
  rel b1 b2 (F b1 (field_frame (d_m d1)) (triple (numbers b1 (d_box d1))) (region_numbers b1 r1) (rotation_numbers b1 t1) (particles b1 d1))
            (F b2 (field_frame (d_m d2)) (triple (numbers b2 (d_box d2))) (region_numbers b2 r2) (rotation_numbers b2 t2) (particles b2 d2)).
Proof.
  intros H. rewrite <- M. pose proof L as (_ & _ & _ & LB & _). pose proof (gd_box _ _ _ _ _ D1) as B1. pose proof (gd_box _ _ _ _ _ D2) as B2. pose proof (gd_nbox _ _ _ _ _ D1) as N1. pose proof (gd_nbox _ _ _ _ _ D2) as N2.
  destruct b1, b2.
  - rewrite (particles_equal j true n1 n2 d1 d2 D1 D2 M L), <- (numbers_equal true _ _ B1 B2 LB), (region_equal true r1 r2 G1 G2 SR), (rotation_equal true t1 t2 T1 T2 ST). apply rel_refl.
  - rewrite (particles_pair j n1 n2 d1 d2 D1 D2 M L), (box_pair _ _ B1 B2 N1 LB), (region_pair r1 r2 G1 G2 SR), (rotation_pair t1 t2 T1 T2 ST). apply rel_scale. apply H; [|discriminate]. intros _. split; reflexivity.
  - apply rel_sym. rewrite (particles_pair j n2 n1 d2 d1 D2 D1 (eq_sym M) (same_lengths_sym _ _ L)), (box_pair _ _ B2 B1 N2 (eq_sym LB)), (region_pair r2 r1 G2 G1 (same_array_sym _ _ SR)), (rotation_pair t2 t1 T2 T1 (same_rotation_sym _ _ ST)). apply rel_scale. apply H; [|discriminate]. intros _. split; reflexivity.
  - rewrite (particles_equal j false n1 n2 d1 d2 D1 D2 M L), <- (numbers_equal false _ _ B1 B2 LB), (region_equal false r1 r2 G1 G2 SR), (rotation_equal false t1 t2 T1 T2 ST). apply rel_refl.
Qed.

Theorem project_same backend n periodic mask : blind backend -> same_outcome (f_project backend n periodic d1 r1 t1 mask) (f_project backend n periodic d2 r2 t2 mask).
Proof.
  intros B. refine (rel_matches j 2 (d_m d1) b1 b2 _ _ _ _ _ (project_num s b1 s_pos backend j n1 n periodic d1 r1 t1 mask D1 G1 T1) _); [|rewrite M; exact (project_num s b2 s_pos backend j n2 n periodic d2 r2 t2 mask D2 G2 T2)].
  apply (lift_rel (fun b fr box r t ps => project backend s b fr n periodic box r t mask ps)). intros fr box r t ps _ _. now apply project_scale.
Qed.
Theorem slice_same backend n z1 z2 periodic mask : good_height s z1 -> good_height s z2 -> same_array z1 z2 -> same_outcome (f_slice backend n z1 periodic d1 r1 t1 mask) (f_slice backend n z2 periodic d2 r2 t2 mask).
Proof.
  intros H1 H2 SH. refine (rel_matches j 3 (d_m d1) b1 b2 _ _ _ _ _ (slice_num s b1 s_pos backend j n1 n z1 periodic d1 r1 t1 mask D1 G1 T1 H1) _); [|rewrite M; exact (slice_num s b2 s_pos backend j n2 n z2 periodic d2 r2 t2 mask D2 G2 T2 H2)].
  assert (E : height_number b2 z2 = height_number b2 z1) by now apply height_equal.
  rewrite E. clear E z2 H2 SH.
  apply (lift_rel (fun b fr box r t ps => slice_grid backend s b fr n (height_number b z1) periodic box r t mask ps)). intros fr box r t ps _ _. rewrite (height_pair z1 z1 H1 H1); [|destruct z1; cbn; auto]. now apply slice_scale.
Qed.
Lemma cubic_pair box r : good s 1 box -> good_region s r -> cubic box r -> cubic_numbers (triple (numbers true box)) (region_numbers true r).
Proof.
  intros B G C. assert (P : forall x v, good s 1 x -> phys x = v -> numbers true x = map (Rmult (/ s)) v).
  { intros x v X <-. rewrite (numbers_phys s true 1 x X), map_map. unfold unit_size. rewrite Rpower_one. rewrite <- (map_id (numbers true x)) at 1. apply map_ext. intros a. field. lra. }
  destruct r as [r|]; cbn [cubic good_region region_numbers] in *.
  - destruct G as [G _]. destruct C as [(x0 & y0 & z0 & l & E)|(x0 & y0 & l & lx & ly & E & EB)].
    + rewrite (P r _ G E). cbn. split; ring.
    + rewrite (P r _ G E), (P box _ B EB). cbn. split; ring.
  - destruct C as (l & E). rewrite (P box _ B E). cbn. auto.
Qed.
Theorem voxels_same backend n periodic mask : cubic (d_box d1) r1 -> same_outcome (f_voxels backend n periodic d1 r1 t1 mask) (f_voxels backend n periodic d2 r2 t2 mask).
Proof.
  intros C. refine (rel_matches j 3 (d_m d1) b1 b2 _ _ _ _ _ (voxels_num s b1 s_pos backend j n1 n periodic d1 r1 t1 mask D1 G1 T1) _); [|rewrite M; exact (voxels_num s b2 s_pos backend j n2 n periodic d2 r2 t2 mask D2 G2 T2)].
  apply (lift_rel (fun b fr box r t ps => voxel_grid backend s b fr n periodic box r t mask ps)). intros fr box r t ps E N. destruct (E N) as [-> ->]. apply voxels_scale; [exact s_pos|].
  destruct b1; [now apply cubic_pair; [apply (gd_box _ _ _ _ _ D1)| |]|]. apply cubic_pair; [apply (gd_box _ _ _ _ _ D2)|exact G2|].
  pose proof L as (_ & _ & _ & LB & _). clear - C SR LB. destruct r1 as [a1|], r2 as [a2|]; cbn [same_array cubic] in *; try tauto; rewrite <- ?SR, <- LB; exact C.
Qed.
End Pairs.
End Same.

(** * Regions of other snapshots *)

Section Other.
Variables (s t : R) (b : bool) (j : R) (dn : nat) (d : fdata) (r : carr) (rotation : option (mat * carr)).
Hypotheses (N : s <> t) (D : good_data s b j dn d) (G : good_region t (Some r)) (GR : good_rotation s rotation).

Lemma info_other (periodic : bool) :
  (periodic = true -> f_region_info false periodic (Some b) (d_box d) (Some r) = Err InvalidScaleFactor)
  /\ (periodic = false -> exists f v w u, f_region_info false periodic (Some b) (d_box d) (Some r) = Ok f /\ num t b 1 (f_xmin f) [v] /\ num t b 1 (f_max f) [w]
        /\ (exists v', num t b 1 (f_xrange f) [v']) /\ (exists v', num t b 1 (f_yrange f) [v']) /\ (f_has_z f = true -> num t b 1 (f_zmax f) [u])).
Proof.
  pose proof (gd_box _ _ _ _ _ D) as B. pose proof (gd_nbox _ _ _ _ _ D) as L. unfold f_region_info. destruct (in_frame_num s b 1 _ B) as (q & E & Q). rewrite E. cbn [bind]. clear E.
  rewrite <- (numbers_length s b 1 _ B) in L. destruct (three _ L) as (bx & by_ & bz & V). rewrite V in *.
  destruct (item_num s b 1 q _ 0 _ Q eq_refl) as (qx & E1 & QX). destruct (item_num s b 1 q _ 1 _ Q eq_refl) as (qy & E2 & QY). destruct (item_num s b 1 q _ 2 _ Q eq_refl) as (qz & E3 & QZ).
  destruct G as [GG LR]. destruct (in_frame_num t b 1 r GG) as (p & E & P). rewrite E. cbn [bind]. clear E. rewrite E1, E2, E3. cbn [bind].
  rewrite <- (numbers_length t b 1 _ GG) in LR. replace (avals p) with (numbers b r) by (symmetry; apply P).
  destruct (numbers b r) as [|x0 [|x1 [|y0 [|y1 w]]]] eqn:W; try (destruct LR; discriminate).
  destruct (item_num t b 1 p _ 0 _ P eq_refl) as (p0 & F0 & P0). destruct (item_num t b 1 p _ 1 _ P eq_refl) as (p1 & F1 & P1). destruct (item_num t b 1 p _ 2 _ P eq_refl) as (p2 & F2 & P2). destruct (item_num t b 1 p _ 3 _ P eq_refl) as (p3 & F3 & P3). rewrite F0, F1, F2, F3.
  destruct (num_same2 t b Bsub 1 _ _ _ _ _ (or_intror (or_introl eq_refl)) P1 P0 eq_refl) as (xr & H1 & XR). destruct (num_same2 t b Bsub 1 _ _ _ _ _ (or_intror (or_introl eq_refl)) P3 P2 eq_refl) as (yr & H2 & YR). cbn [map2 bfun] in XR, YR.
  destruct (num_largest t b 1 _ _ _ _ XR YR) as (mr & H3 & MR).
  assert (T : forall z0 z1 zr has u, binop Bsub (OArr z1) (OArr z0) = Ok zr -> (has = true -> num t b 1 z1 [u]) ->
    let got := (do xr <- binop Bsub (OArr p1) (OArr p0); do yr <- binop Bsub (OArr p3) (OArr p2); do zr <- binop Bsub (OArr z1) (OArr z0); do mr <- largest xr yr;
      do refused <- Ok false; if refused then Err AttributeError else
      do box <- (if periodic then do b <- binop Bdiv (OArr q) (OArr mr); do b0 <- item b 0; do b1 <- item b 1; do b2 <- item b 2; Ok (Some (b0, b1, b2)) else Ok None);
      Ok (mkfinfo p0 p2 z0 z1 xr yr zr mr has box)) in
    (periodic = true -> got = Err InvalidScaleFactor) /\ (periodic = false -> exists f v w u, got = Ok f /\ num t b 1 (f_xmin f) [v] /\ num t b 1 (f_max f) [w]
        /\ (exists v', num t b 1 (f_xrange f) [v']) /\ (exists v', num t b 1 (f_yrange f) [v']) /\ (f_has_z f = true -> num t b 1 (f_zmax f) [u]))).
  { intros z0 z1 zr has u EZ HU. rewrite H1. cbn [bind]. rewrite H2. cbn [bind]. rewrite EZ. cbn [bind]. rewrite H3. cbn [bind]. cbv zeta. split; intros ->.
    - rewrite (muldiv_reject s t 1 1 Bdiv q mr ltac:(cbn; auto) (num_good _ _ _ _ _ Q) (num_good _ _ _ _ _ MR) N). reflexivity.
    - cbn [bind]. eexists _, _, _, _. split; [reflexivity|]. cbn [f_xmin f_max f_xrange f_yrange f_has_z f_zmax]. split; [exact P0|]. split; [exact MR|]. split; [eexists; exact XR|]. split; [eexists; exact YR|]. exact HU. }
  destruct w as [|z0 [|z1 [|? ?]]]; try (destruct LR; discriminate); cbn [length Nat.ltb Nat.leb Nat.eqb bind].
  - destruct (num_same2 s b Bsub 1 _ _ _ _ _ (or_intror (or_introl eq_refl)) QZ (num_zero s b 1 qz _ QZ) eq_refl) as (zr & HZ & _). exact (T _ _ zr false 0 HZ ltac:(discriminate)).
  - destruct (item_num t b 1 p _ 4 _ P eq_refl) as (p4 & F4 & P4). destruct (item_num t b 1 p _ 5 _ P eq_refl) as (p5 & F5 & P5). rewrite F4, F5. cbn [bind].
    destruct (num_same2 t b Bsub 1 _ _ _ _ _ (or_intror (or_introl eq_refl)) P5 P4 eq_refl) as (zr & HZ & _). exact (T _ _ zr true _ HZ (fun _ => P5)).
Qed.

Lemma placed_other : exists x y z st ps, f_placed false (d_box d) rotation (d_coords d) = Ok ((x, y, z), st) /\ num s b 1 x (map p_x ps) /\ num s b 1 z (map p_z ps).
Proof.
  destruct (particles_columns s b j dn d D) as (PC & _ & _).
  pose proof (placed_num s b false (d_box d) rotation (d_coords d) _ PC (gd_box _ _ _ _ _ D) (gd_nbox _ _ _ _ _ D) GR) as PL.
  assert (K : exists qs st, placed false (triple (numbers b (d_box d))) (rotation_numbers b rotation) (particles b d) = Ok (qs, st)) by (unfold placed; destruct (rotation_numbers b rotation) as [[? ?]|]; eauto).
  destruct K as (qs & st & K). rewrite K in PL. destruct PL as ([[x y] z] & c2 & E & (X & Y & W) & _). exists x, y, z, c2, qs. auto.
Qed.

Theorem project_other backend n periodic : f_project backend n periodic d (Some r) rotation None = Err (if periodic then InvalidScaleFactor else ValueError).
Proof.
  destruct (particles_columns s b j dn d D) as (PC & _ & _). unfold f_project. rewrite (num_acm s b _ _ _ (columns_x s b _ _ PC)). destruct (info_other periodic) as [H1 H2]. destruct periodic; [now rewrite H1|].
  destruct (H2 eq_refl) as (f & v & w & u & E & X0 & MR & _ & _ & Z1). rewrite E. cbn [bind]. destruct placed_other as (x & y & z & st & ps & E2 & X & W). rewrite E2. cbn [bind]. unfold f_depth. destruct (f_has_z f).
  - rewrite (cmp_reject s t 1 1 Cle z (f_zmax f) (num_good _ _ _ _ _ W) (num_good _ _ _ _ _ (Z1 eq_refl)) (or_introl N)). reflexivity.
  - cbn [bind]. unfold picked at 1, pick. cbn [bind]. unfold f_normed at 1.
    rewrite (same_reject s t 1 1 Bsub (same_label x (avals x)) (f_xmin f) ltac:(cbn; auto) (num_good s b _ _ _ (num_same s b 1 x _ _ X)) (num_good _ _ _ _ _ X0) (or_introl N)). reflexivity.
Qed.
Theorem slice_other backend n z periodic : f_slice backend n z periodic d (Some r) rotation None = Err (if periodic then InvalidScaleFactor else ValueError).
Proof.
  destruct (particles_columns s b j dn d D) as (PC & _ & _). unfold f_slice. rewrite (num_acm s b _ _ _ (columns_x s b _ _ PC)).
  pose proof (numbers_worth s b 1 _ (gd_box _ _ _ _ _ D)) as BW. pose proof (gd_nbox _ _ _ _ _ D) as BL. rewrite <- (numbers_length s b 1 _ (gd_box _ _ _ _ _ D)) in BL. destruct (three _ BL) as (b0 & b1 & b2 & BV). rewrite BV in BW.
  assert (K : exists q, match z with Some z => Ok z | None => do b <- item (d_box d) 0; Ok (zero_like b) end = Ok q).
  { destruct z; [eauto|]. destruct (worth_item s b 1 _ _ 0 _ BW eq_refl) as (q & E & _). rewrite E. cbn [bind]. eauto. }
  destruct K as (q & K). rewrite K. cbn [bind]. destruct (info_other periodic) as [H1 H2]. destruct periodic; [now rewrite H1|].
  destruct (H2 eq_refl) as (f & v & w & u & E & X0 & MR & (xr & XR) & (yr & YR) & _). rewrite E. cbn [bind]. destruct placed_other as (x & y & z' & st & ps & E2 & X & W). rewrite E2. cbn [bind].
  assert (K2 : exists q, match rotation with Some (_, center) => item center 2 | None => do b <- item (d_box d) 2; Ok (zero_like b) end = Ok q).
  { destruct rotation as [[mt ct]|]; cbn [good_rotation] in *.
    - destruct GR as [GC LC]. pose proof (numbers_worth s b 1 _ GC) as CW. rewrite <- (numbers_length s b 1 _ GC) in LC. destruct (three _ LC) as (k0 & k1 & k2 & CV). rewrite CV in *. destruct (worth_item s b 1 _ _ 2 _ CW eq_refl) as (qc & E' & _). eauto.
    - destruct (worth_item s b 1 _ _ 2 _ BW eq_refl) as (qc & E' & _). rewrite E'. cbn [bind]. eauto. }
  destruct K2 as (q2 & K2). rewrite K2. cbn [bind]. rewrite (pixels_slice_num t b n _ _ _ _ XR MR). cbn [bind]. rewrite (pixels_slice_num t b n _ _ _ _ YR MR). cbn [bind].
  unfold picked at 1, pick. cbn [bind]. unfold f_normed at 1.
  rewrite (same_reject s t 1 1 Bsub (same_label x (avals x)) (f_xmin f) ltac:(cbn; auto) (num_good s b _ _ _ (num_same s b 1 x _ _ X)) (num_good _ _ _ _ _ X0) (or_introl N)). reflexivity.
Qed.
End Other.

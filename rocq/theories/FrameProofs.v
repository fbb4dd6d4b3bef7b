(** Pictures of cosmo arrays are pictures of their numbers. *)
From Coq Require Import List ZArith Reals Bool Lia Lra.
From Verif Require Import Base VisModel RotModel HsmlModel CosmoModel CosmoSpec CosmoProofs CosmoExprProofs RegionModel RegionProofs FrontModel FrameModel FrameSpec.
Import ListNotations.
Open Scope R_scope.

(** * Arrays in one frame *)

Section Frame.
Variables (s : R) (b : bool).

Definition num (k : R) (x : carr) (v : list R) : Prop := stored_in s b k x /\ avals x = v.

Lemma num_good k x v : num k x v -> good s k x.
Proof. now intros [[G _] _]. Qed.
Lemma num_acm k x v : num k x v -> acm x = Some b.
Proof. now intros [[_ C] _]. Qed.
Lemma num_acf k x v : num k x v -> acf x = lcf s k.
Proof. intros [[G _] _]. apply G. Qed.
Lemma num_make k v c : num k (mkarr v (lcf s k) (Some b) true c) v.
Proof. split; [|reflexivity]. split; [|reflexivity]. constructor; cbn; [reflexivity|discriminate|reflexivity]. Qed.
Lemma num_exp j k x v : j = k -> num j x v -> num k x v.
Proof. now intros ->. Qed.
Lemma num_vals k x v w : v = w -> num k x v -> num k x w.
Proof. now intros ->. Qed.
Lemma num_same k x v w : num k x v -> num k (same_label x w) w.
Proof. intros [[G C] _]. split; [|reflexivity]. split; [|exact C]. destruct G as [A B V]. constructor; cbn; assumption. Qed.

Definition unit_size (k : R) : R := if b then Rpower s k else 1.
Lemma unit_size_pos k : 0 < unit_size k.
Proof. unfold unit_size. destruct b; [apply Rpower_pos|lra]. Qed.

Lemma numbers_phys k x : good s k x -> phys x = map (Rmult (unit_size k)) (numbers b x).
Proof.
  intros [F C V]. unfold numbers, unit_size, phys, comov. rewrite F. destruct b.
  - destruct (acm x) as [[|]|]; [reflexivity| |congruence]. rewrite map_map. rewrite <- (map_id (avals x)) at 1. apply map_ext. intros a. pose proof (Rpower_pos s k). field. lra.
  - rewrite <- (map_id (match acm x with Some true => _ | _ => _ end)) at 1. apply map_ext. intros a. ring.
Qed.
Lemma num_phys k x v : num k x v -> phys x = map (Rmult (unit_size k)) v.
Proof.
  intros [[[F C V] A] <-]. unfold unit_size, phys. rewrite F, A. destruct b; [reflexivity|]. rewrite <- (map_id (avals x)) at 1. apply map_ext. intros a. ring.
Qed.
Lemma numbers_length k x : good s k x -> length (numbers b x) = length (avals x).
Proof. intros G. pose proof (numbers_phys k x G) as E. apply (f_equal (@length R)) in E. rewrite map_length, phys_length in E. now symmetry. Qed.

Lemma in_frame_num k x : good s k x -> exists r, in_frame (Some b) x = Ok r /\ num k r (numbers b x).
Proof.
  intros G. unfold in_frame, numbers, num, stored_in. destruct b; [rewrite (to_c_good s k x G)|rewrite (to_p_good s k x G)]; eexists; (split; [reflexivity|]); (split; [|reflexivity]); (split; [now apply good_set_cm|reflexivity]).
Qed.
Lemma to_cm_num k x : good s k x -> exists r, to_cm (Some b) x = Ok r /\ num k r (numbers b x).
Proof.
  intros G. unfold to_cm, numbers, num, stored_in. rewrite (g_vt _ _ _ G). cbn [negb andb]. destruct b; [rewrite (conv_c_good s k x G)|rewrite (conv_p_good s k x G)]; eexists; (split; [reflexivity|]); (split; [|reflexivity]); (split; [now apply good_set_cm|reflexivity]).
Qed.

Lemma item_num k x v i a : num k x v -> nth_error v i = Some a -> exists r, item x i = Ok r /\ num k r [a].
Proof. intros X N. unfold item. destruct X as [X <-]. rewrite N. eexists. split; [reflexivity|]. exact (num_same k x _ [a] (conj X eq_refl)). Qed.

Lemma prepare_num j k x v y w : num j x v -> num k y w -> exists cp, prepare true [OArr x; OArr y] = Ok (mkprep [OArr x; OArr y] [acf x; acf y] (Some b) true cp).
Proof.
  intros [[[F C V] A] _] [[[F' C' V'] A'] _]. unfold prepare. cbn [map op_cm filter fst snd]. rewrite A, A'. cbn [map snd forallb op_vt]. rewrite V, V'.
  destruct b; cbn [is_true is_none is_false andb orb existsb]; eexists; reflexivity.
Qed.

Lemma num_ufunc2 f h j k m x v y w z : num j x v -> num k y w -> h (lcf s j) (lcf s k) = Ok (lcf s m) -> broadcast f v w = Ok z ->
  exists r, ufunc2 f h (OArr x) (OArr y) = Ok r /\ num m r z.
Proof.
  intros X Y H B. destruct (prepare_num j k x v y w X Y) as (cp & P). unfold ufunc2. rewrite P. cbn [bind op_cf p_args op_vals p_cm p_vt p_comp]. rewrite (num_acf _ _ _ X), (num_acf _ _ _ Y), H. cbn [bind].
  destruct X as [_ ->], Y as [_ ->]. rewrite B. cbn [bind]. eexists. split; [reflexivity|]. apply num_make.
Qed.

Lemma num_same2 o k x v y w z : In o [Badd; Bsub] -> num k x v -> num k y w -> broadcast (bfun o) v w = Ok z -> exists r, binop o (OArr x) (OArr y) = Ok r /\ num k r z.
Proof. intros O X Y B. apply (num_ufunc2 _ _ k k k x v y w z X Y); [|exact B]. destruct O as [<-|[<-|[]]]; cbn [bhandler]; apply h_same. Qed.
Lemma num_rem k x v y w z : num k x v -> num k y w -> broadcast rmod v w = Ok z -> exists r, remop (OArr x) (OArr y) = Ok r /\ num k r z.
Proof. intros X Y B. apply (num_ufunc2 _ _ k k k x v y w z X Y); [|exact B]. apply h_same. Qed.
Lemma num_div j k x v y w z : num j x v -> num k y w -> broadcast Rdiv v w = Ok z -> exists r, binop Bdiv (OArr x) (OArr y) = Ok r /\ num (j - k) r z.
Proof. intros X Y B. apply (num_ufunc2 _ _ j k (j - k) x v y w z X Y); [|exact B]. cbn [bhandler]. apply h_div_ok. Qed.
Lemma num_mul j k x v y w z : num j x v -> num k y w -> broadcast Rmult v w = Ok z -> exists r, binop Bmul (OArr x) (OArr y) = Ok r /\ num (j + k) r z.
Proof. intros X Y B. apply (num_ufunc2 _ _ j k (j + k) x v y w z X Y); [|exact B]. cbn [bhandler]. unfold h_multiply, reduce, reduce_from. now rewrite h_mul_ok. Qed.

Lemma prepare_plain k x v w : num k x v -> exists cp, prepare true [OPlain w; OArr x] = Ok (mkprep [OPlain w; OArr x] [None; acf x] (Some b) true cp).
Proof.
  intros [[[F C V] A] _]. unfold prepare. cbn [map op_cm filter fst snd]. rewrite A. cbn [map snd forallb op_vt]. rewrite V. destruct b; cbn [is_true is_none is_false andb orb existsb]; eexists; reflexivity.
Qed.
Lemma bc_one_l {C} (f : R -> R -> C) x ys : broadcast f [x] ys = Ok (map (f x) ys).
Proof. destruct ys as [|y [|y' ys]]; reflexivity. Qed.
Lemma num_scaled k x v a : num k x v -> exists r, binop Bmul (OPlain [a]) (OArr x) = Ok r /\ num k r (map (Rmult a) v).
Proof.
  intros X. destruct (prepare_plain k x v [a] X) as (cp & P). unfold binop, ufunc2. rewrite P. cbn [bind op_cf p_args op_vals p_cm p_vt p_comp bhandler h_multiply reduce reduce_from h_multiply2]. rewrite (num_acf _ _ _ X). cbn [bind].
  destruct X as [_ ->]. rewrite bc_one_l. cbn [bind]. eexists. split; [reflexivity|]. apply num_make.
Qed.

Lemma num_cmp f k x v y w : num k x v -> num k y w -> ufunc_cmp f (OArr x) (OArr y) = broadcast f v w.
Proof.
  intros X Y. destruct (prepare_num k k x v y w X Y) as (cp & P). unfold ufunc_cmp. rewrite P. cbn [bind op_cf p_args op_vals]. rewrite (num_acf _ _ _ X), (num_acf _ _ _ Y). unfold h_compare, lcf. rewrite cf_eq_refl. cbn [negb bind].
  destruct X as [_ ->], Y as [_ ->]. reflexivity.
Qed.
Lemma num_close k x v y w : num k x [v] -> num k y [w] -> close x y = Ok (FrontModel.isclose v w).
Proof. intros X Y. unfold close. rewrite (num_cmp _ k x _ y _ X Y). reflexivity. Qed.
Lemma num_largest k x v y w : num k x [v] -> num k y [w] -> exists r, largest x y = Ok r /\ num k r [Rmax v w].
Proof.
  intros X Y. destruct (prepare_num k k x _ y _ X Y) as (cp & P). unfold largest. rewrite P. cbn [bind p_cfs p_args op_vals p_cm p_vt p_comp]. rewrite (num_acf _ _ _ X), (num_acf _ _ _ Y).
  replace (h_preserve [lcf s k; lcf s k]) with (Ok (lcf s k)) by (symmetry; apply h_same). cbn [bind]. destruct X as [_ ->], Y as [_ ->]. cbn [app fold_left]. eexists. split; [reflexivity|]. apply num_make.
Qed.
Lemma num_zero k x v : num k x v -> num k (zero_like x) [0].
Proof. intros X. exact (num_same k x v [0] X). Qed.

(** * The region *)

Record known (i : info) (f : finfo) : Prop := mkknown {
  k_xmin : num 1 (f_xmin f) [i_xmin i]; k_ymin : num 1 (f_ymin f) [i_ymin i]; k_zmin : num 1 (f_zmin f) [i_zmin i]; k_zmax : num 1 (f_zmax f) [i_zmax i];
  k_xrange : num 1 (f_xrange f) [i_xrange i]; k_yrange : num 1 (f_yrange f) [i_yrange i]; k_zrange : num 1 (f_zrange f) [i_zrange i];
  k_max : num 1 (f_max f) [i_max i]; k_has : f_has_z f = i_has_z i;
}.
Definition known_box (periodic : bool) (i : info) (f : finfo) : Prop :=
  let '(bx, by_, bz) := i_box i in
  if periodic then exists x y z, f_box f = Some (x, y, z) /\ num 0 x [bx] /\ num 0 y [by_] /\ num 0 z [bz] else f_box f = None /\ (bx, by_, bz) = (0, 0, 0).

Ltac take H := let r := fresh "r" in let E := fresh "E" in let N := fresh "N" in destruct H as (r & E & N); rewrite E; cbn [bind]; clear E.

Lemma three (v : list R) : length v = 3%nat -> exists x y z, v = [x; y; z].
Proof. destruct v as [|x [|y [|z [|? ?]]]]; try discriminate. eauto. Qed.

Lemma region_tail (cubic periodic : bool) (boxsize : carr) (bx by_ bz x0 x1 y0 y1 z0 z1 : R) (qx0 qx1 qy0 qy1 qz0 qz1 : carr) (has : bool) :
  num 1 boxsize [bx; by_; bz] -> num 1 qx0 [x0] -> num 1 qx1 [x1] -> num 1 qy0 [y0] -> num 1 qy1 [y1] -> num 1 qz0 [z0] -> num 1 qz1 [z1] ->
  let got := (do xr <- binop Bsub (OArr qx1) (OArr qx0);
    do yr <- binop Bsub (OArr qy1) (OArr qy0);
    do zr <- binop Bsub (OArr qz1) (OArr qz0);
    do mr <- largest xr yr;
    do refused <- (if cubic then do a <- close xr yr; (if a then do b <- close xr zr; Ok (negb b) else Ok true) else Ok false);
    if refused then Err AttributeError
    else
    do box <- (if periodic
               then do b <- binop Bdiv (OArr boxsize) (OArr mr);
                    do b0 <- item b 0; do b1 <- item b 1; do b2 <- item b 2; Ok (Some (b0, b1, b2))
               else Ok None);
    Ok (mkfinfo qx0 qy0 qz0 qz1 xr yr zr mr has box)) in
  let mr := Rmax (x1 - x0) (y1 - y0) in
  if cubic && negb (FrontModel.isclose (x1 - x0) (y1 - y0) && FrontModel.isclose (x1 - x0) (z1 - z0)) then got = Err AttributeError
  else exists f, got = Ok f /\ let i := mkinfo x0 y0 z0 z1 (x1 - x0) (y1 - y0) (z1 - z0) mr has (if periodic then (bx / mr, by_ / mr, bz / mr) else (0, 0, 0)) in known i f /\ known_box periodic i f.
Proof.
  intros B X0 X1 Y0 Y1 Z0 Z1 got mr. unfold got. clear got.
  destruct (num_same2 Bsub 1 _ _ _ _ _ (or_intror (or_introl eq_refl)) X1 X0 eq_refl) as (xr & E1 & XR). rewrite E1. cbn [bind].
  destruct (num_same2 Bsub 1 _ _ _ _ _ (or_intror (or_introl eq_refl)) Y1 Y0 eq_refl) as (yr & E2 & YR). rewrite E2. cbn [bind].
  destruct (num_same2 Bsub 1 _ _ _ _ _ (or_intror (or_introl eq_refl)) Z1 Z0 eq_refl) as (zr & E3 & ZR). rewrite E3. cbn [bind].
  cbn [map2 bfun] in XR, YR, ZR.
  destruct (num_largest 1 _ _ _ _ XR YR) as (qm & E4 & MR). rewrite E4. cbn [bind]. fold mr in MR.
  set (i := mkinfo x0 y0 z0 z1 (x1 - x0) (y1 - y0) (z1 - z0) mr has (if periodic then (bx / mr, by_ / mr, bz / mr) else (0, 0, 0))).
  assert (T : exists f, (do box <- (if periodic
               then do b <- binop Bdiv (OArr boxsize) (OArr qm);
                    do b0 <- item b 0; do b1 <- item b 1; do b2 <- item b 2; Ok (Some (b0, b1, b2))
               else Ok None);
    Ok (mkfinfo qx0 qy0 qz0 qz1 xr yr zr qm has box)) = Ok f /\ known i f /\ known_box periodic i f).
  { destruct periodic.
    - destruct (num_div 1 1 _ _ _ _ _ B MR eq_refl) as (q & E & Q). rewrite E. cbn [bind]. cbn [map] in Q. apply (num_exp (1 - 1) 0) in Q; [|ring].
      destruct (item_num 0 q _ 0 _ Q eq_refl) as (q0 & E5 & Q0). rewrite E5. cbn [bind].
      destruct (item_num 0 q _ 1 _ Q eq_refl) as (q1 & E6 & Q1). rewrite E6. cbn [bind].
      destruct (item_num 0 q _ 2 _ Q eq_refl) as (q2 & E7 & Q2). rewrite E7. cbn [bind].
      eexists. split; [reflexivity|]. split; [constructor; cbn; (assumption || reflexivity)|]. unfold known_box, i. cbn. exists q0, q1, q2. auto.
    - cbn [bind]. eexists. split; [reflexivity|]. split; [constructor; cbn; (assumption || reflexivity)|]. unfold known_box, i. cbn. auto. }
  destruct cubic; cbn [andb].
  - rewrite (num_close 1 _ _ _ _ XR YR). cbn [bind]. destruct (FrontModel.isclose (x1 - x0) (y1 - y0)); cbn [andb negb bind]; [|reflexivity].
    rewrite (num_close 1 _ _ _ _ XR ZR). cbn [bind]. destruct (FrontModel.isclose (x1 - x0) (z1 - z0)); cbn [negb bind]; [exact T|reflexivity].
  - cbn [bind]. exact T.
Qed.

Lemma region_info_num (cubic periodic : bool) (boxsize : carr) (region : option carr) : good s 1 boxsize -> length (avals boxsize) = 3%nat -> good_region s region ->
  match region_info cubic periodic (triple (numbers b boxsize)) (region_numbers b region) with
  | Err e => f_region_info cubic periodic (Some b) boxsize region = Err e
  | Ok i => exists f, f_region_info cubic periodic (Some b) boxsize region = Ok f /\ known i f /\ known_box periodic i f
  end.
Proof.
  intros B L G. unfold f_region_info. destruct (in_frame_num 1 boxsize B) as (q & E & Q). rewrite E. cbn [bind]. clear E.
  rewrite <- (numbers_length 1 _ B) in L. destruct (three _ L) as (bx & by_ & bz & V). rewrite V in *. cbn [triple].
  destruct (item_num 1 q _ 0 _ Q eq_refl) as (qx & E1 & QX). destruct (item_num 1 q _ 1 _ Q eq_refl) as (qy & E2 & QY). destruct (item_num 1 q _ 2 _ Q eq_refl) as (qz & E3 & QZ).
  destruct region as [r|]; cbn [region_numbers].
  - destruct G as [G LR]. destruct (in_frame_num 1 r G) as (p & E & P). rewrite E. cbn [bind]. clear E. rewrite E1, E2, E3. cbn [bind].
    rewrite <- (numbers_length 1 _ G) in LR. unfold region_info. replace (avals p) with (numbers b r) by (symmetry; apply P).
    destruct LR as [LR|LR].
    + destruct (numbers b r) as [|x0 [|x1 [|y0 [|y1 [|? ?]]]]] eqn:W; try discriminate LR. cbn [region_of r_z r_xmin r_xmax r_ymin r_ymax length Nat.ltb Nat.leb Nat.eqb].
      destruct (item_num 1 p _ 0 _ P eq_refl) as (p0 & F0 & P0). destruct (item_num 1 p _ 1 _ P eq_refl) as (p1 & F1 & P1).
      destruct (item_num 1 p _ 2 _ P eq_refl) as (p2 & F2 & P2). destruct (item_num 1 p _ 3 _ P eq_refl) as (p3 & F3 & P3). rewrite F0, F1, F2, F3. cbn [bind].
      pose proof (region_tail cubic periodic q bx by_ bz x0 x1 y0 y1 0 bz p0 p1 p2 p3 (zero_like qz) qz false Q P0 P1 P2 P3 (num_zero 1 qz _ QZ) QZ) as T. cbv zeta in T.
      destruct (cubic && _); exact T.
    + destruct (numbers b r) as [|x0 [|x1 [|y0 [|y1 [|z0 [|z1 [|? ?]]]]]]] eqn:W; try discriminate LR. cbn [region_of r_z r_xmin r_xmax r_ymin r_ymax length Nat.ltb Nat.leb Nat.eqb].
      destruct (item_num 1 p _ 0 _ P eq_refl) as (p0 & F0 & P0). destruct (item_num 1 p _ 1 _ P eq_refl) as (p1 & F1 & P1).
      destruct (item_num 1 p _ 2 _ P eq_refl) as (p2 & F2 & P2). destruct (item_num 1 p _ 3 _ P eq_refl) as (p3 & F3 & P3).
      destruct (item_num 1 p _ 4 _ P eq_refl) as (p4 & F4 & P4). destruct (item_num 1 p _ 5 _ P eq_refl) as (p5 & F5 & P5). rewrite F0, F1, F2, F3. cbn [bind]. rewrite F4, F5. cbn [bind].
      pose proof (region_tail cubic periodic q bx by_ bz x0 x1 y0 y1 z0 z1 p0 p1 p2 p3 p4 p5 true Q P0 P1 P2 P3 P4 P5) as T. cbv zeta in T.
      destruct (cubic && _); exact T.
  - cbn [bind]. rewrite E1, E2, E3. cbn [bind]. unfold region_info.
    pose proof (region_tail cubic periodic q bx by_ bz 0 bx 0 by_ 0 bz (zero_like qx) qx (zero_like qy) qy (zero_like qz) qz false Q (num_zero 1 qx _ QX) QX (num_zero 1 qy _ QY) QY (num_zero 1 qz _ QZ) QZ) as T. cbv zeta in T.
    destruct (cubic && _); exact T.
Qed.

(** * Columns *)

Lemma map2_map {A C} (f : R -> R -> C) (g h : A -> R) l : map2 f (map g l) (map h l) = map (fun p => f (g p) (h p)) l.
Proof. induction l as [|a l IH]; [reflexivity|]. cbn [map map2]. now rewrite IH. Qed.
Lemma bc_cols {A C} (f : R -> R -> C) (g h : A -> R) l : broadcast f (map g l) (map h l) = Ok (map (fun p => f (g p) (h p)) l).
Proof. unfold broadcast. rewrite !map_length, Nat.eqb_refl. now rewrite map2_map. Qed.
Lemma bc_col1 {A C} (f : R -> R -> C) (g : A -> R) l y : broadcast f (map g l) [y] = Ok (map (fun p => f (g p) y) l).
Proof. rewrite bc_one, map_map. reflexivity. Qed.

Lemma parts_of_maps {A} (a c d e f : A -> R) l : parts_of (map a l) (map c l) (map d l) (map e l) (map f l) = map (fun p => mkpart (a p) (c p) (d p) (e p) (f p)) l.
Proof. induction l as [|p l IH]; [reflexivity|]. cbn [map parts_of]. now rewrite IH. Qed.
Lemma parts_of_cols n xs : forall ys zs ms hs, length xs = n -> length ys = n -> length zs = n -> length ms = n -> length hs = n ->
  let ps := parts_of xs ys zs ms hs in map p_x ps = xs /\ map p_y ps = ys /\ map p_z ps = zs /\ map p_m ps = ms /\ map p_h ps = hs.
Proof.
  revert xs. induction n as [|n IH]; intros [|x xs] [|y ys] [|z zs] [|m ms] [|h hs] A1 A2 A3 A4 A5; try discriminate; cbn [length] in *; [cbn; auto|].
  destruct (IH xs ys zs ms hs ltac:(lia) ltac:(lia) ltac:(lia) ltac:(lia) ltac:(lia)) as (E1 & E2 & E3 & E4 & E5). cbn [parts_of map p_x p_y p_z p_m p_h]. now rewrite E1, E2, E3, E4, E5.
Qed.

Lemma pick_map {A B} (f : A -> B) mask l : pick mask (map f l) = match pick mask l with Ok v => Ok (map f v) | Err e => Err e end.
Proof.
  unfold pick. destruct mask as [bs|]; [|reflexivity]. replace (zlen (map f l)) with (zlen l) by (unfold zlen; now rewrite map_length). destruct (zlen bs =? zlen l)%Z; [|reflexivity].
  f_equal. revert l. induction bs as [|c bs IH]; intros [|a l]; try reflexivity. cbn [map combine filter fst]. destruct c; cbn [map snd]; now rewrite IH.
Qed.
Lemma picked_num {A} k x (g : A -> R) mask l : num k x (map g l) ->
  match pick mask l with Err e => picked mask x = Err e | Ok v => exists r, picked mask x = Ok r /\ num k r (map g v) end.
Proof.
  intros X. unfold picked. destruct X as [X V]. rewrite V, pick_map. destruct (pick mask l) as [v|e]; cbn [bind]; [|reflexivity].
  eexists. split; [reflexivity|]. exact (num_same k x _ _ (conj X V)).
Qed.


Definition worth (k : R) (x : carr) (v : list R) : Prop := good s k x /\ phys x = map (Rmult (unit_size k)) v.
Lemma num_worth k x v : num k x v -> worth k x v.
Proof. intros X. split; [exact (num_good k x v X)|exact (num_phys k x v X)]. Qed.
Lemma numbers_worth k x : good s k x -> worth k x (numbers b x).
Proof. intros G. split; [exact G|exact (numbers_phys k x G)]. Qed.

Lemma map_scale_inj c (v w : list R) : 0 < c -> map (Rmult c) v = map (Rmult c) w -> v = w.
Proof.
  intros P. revert w. induction v as [|x v IH]; intros [|y w] H; try discriminate; [reflexivity|]. cbn [map] in H. injection H as H1 H2. f_equal; [|now apply IH]. apply (Rmult_eq_reg_l c); [exact H1|lra].
Qed.
Lemma map2_scale {C} (f g : R -> R -> C) c d v w : (forall x y, f (c * x) (d * y) = g x y) -> broadcast f (map (Rmult c) v) (map (Rmult d) w) = broadcast g v w.
Proof.
  intros H. unfold broadcast. rewrite !map_length. destruct (Nat.eqb (length v) (length w)).
  - f_equal. revert w. induction v as [|x v IH]; intros [|y w]; try reflexivity. cbn [map map2]. now rewrite H, IH.
  - destruct v as [|x [|x' v]]; destruct w as [|y [|y' w]]; cbn [map]; rewrite ?map_map; cbn [map]; rewrite ?H; try reflexivity; repeat (f_equal; try (apply map_ext; intros; apply H)).
Qed.
Lemma bc_scaled (f : R -> R -> R) c v w : broadcast (fun x y => c * f x y) v w = match broadcast f v w with Ok z => Ok (map (Rmult c) z) | Err e => Err e end.
Proof.
  unfold broadcast. destruct (Nat.eqb (length v) (length w)).
  - f_equal. revert w. induction v as [|x v IH]; intros [|y w]; try reflexivity. cbn [map map2]. now rewrite IH.
  - destruct v as [|x [|x' v]]; destruct w as [|y [|y' w]]; try reflexivity; cbn [map]; rewrite ?map_map; reflexivity.
Qed.

Lemma worth_ufunc2 f h j k m x v y w z : worth j x v -> worth k y w -> h (lcf s j) (lcf s k) = Ok (lcf s m) ->
  (forall u t, f (Rpower s j * u) (Rpower s k * t) = Rpower s m * f u t) -> broadcast f v w = Ok z ->
  exists r, ufunc2 f h (OArr x) (OArr y) = Ok r /\ worth m r z.
Proof.
  intros [X PX] [Y PY] H F B. pose proof (ufunc2_gives s j k m f h x y X Y H F) as G. rewrite PX, PY in G.
  rewrite (map2_scale f (fun u t => unit_size m * f u t)) in G by (intros u t; unfold unit_size; destruct b; [apply F|now rewrite !Rmult_1_l]).
  rewrite bc_scaled, B in G. destruct (gives_ok _ _ _ _ G) as (r & E & R1 & R2). exists r. split; [exact E|]. split; assumption.
Qed.
Lemma worth_add k x v y w z : worth k x v -> worth k y w -> broadcast Rplus v w = Ok z -> exists r, binop Badd (OArr x) (OArr y) = Ok r /\ worth k r z.
Proof. intros X Y B. apply (worth_ufunc2 _ _ k k k x v y w z X Y); [apply h_same| |exact B]. intros u t. cbn [bfun]. ring. Qed.
Lemma worth_div j k m x v y w z : m = j - k -> worth j x v -> worth k y w -> broadcast Rdiv v w = Ok z -> exists r, binop Bdiv (OArr x) (OArr y) = Ok r /\ worth m r z.
Proof.
  intros -> X Y B. apply (worth_ufunc2 _ _ j k (j - k) x v y w z X Y); [apply h_div_ok| |exact B]. intros u t. cbn [bfun]. unfold Rdiv. rewrite Rinv_scale. unfold Rminus. rewrite Rpower_plus. ring.
Qed.
Lemma rmod_scale c x l : 0 < c -> rmod (c * x) (c * l) = c * rmod x l.
Proof.
  intros P. unfold rmod. replace (c * x / (c * l)) with (x / l); [ring|]. unfold Rdiv. rewrite Rinv_mult.
  replace (c * x * (/ c * / l)) with (c * / c * (x * / l)) by ring. rewrite Rinv_r by lra. ring.
Qed.
Lemma worth_rem k x v y w z : worth k x v -> worth k y w -> broadcast rmod v w = Ok z -> exists r, remop (OArr x) (OArr y) = Ok r /\ worth k r z.
Proof. intros X Y B. apply (worth_ufunc2 _ _ k k k x v y w z X Y); [apply h_same| |exact B]. intros u t. apply rmod_scale, Rpower_pos. Qed.
Lemma worth_cmp o k x v y w : worth k x v -> worth k y w -> cmpop o (OArr x) (OArr y) = broadcast (cfun o) v w.
Proof. intros [X PX] [Y PY]. rewrite (cmpop_phys s k o x y X Y), PX, PY. apply map2_scale. intros u t. apply cfun_scale, unit_size_pos. Qed.
Lemma worth_item k x v i a : worth k x v -> nth_error v i = Some a -> exists r, item x i = Ok r /\ worth k r [a].
Proof.
  intros [G P] N. unfold item.
  assert (H : nth_error (phys x) i = Some (unit_size k * a)) by (rewrite P; now apply map_nth_error).
  destruct (nth_error (avals x) i) as [a'|] eqn:E.
  - eexists. split; [reflexivity|]. split.
    + destruct G as [A B V]. constructor; cbn; assumption.
    + destruct G as [F C V]. revert H. unfold phys. cbn [acf acm avals]. rewrite F. destruct (acm x) as [[|]|]; [|rewrite E; intros [= H]; cbn [map]; now rewrite H|congruence].
      rewrite (map_nth_error _ _ _ E). intros [= H]. cbn [map]. now rewrite <- H.
  - exfalso. apply nth_error_None in E. rewrite <- phys_length in E. apply nth_error_None in E. congruence.
Qed.
Lemma unit_size_0 : unit_size 0 = 1.
Proof. unfold unit_size. destruct b; [|reflexivity]. unfold Rpower. rewrite Rmult_0_l. apply exp_0. Qed.
Lemma map_one (v : list R) : map (Rmult 1) v = v.
Proof. rewrite <- (map_id v) at 2. apply map_ext. intros a. ring. Qed.
Lemma worth_0 x v : worth 0 x v -> phys x = v.
Proof. intros [_ ->]. now rewrite unit_size_0, map_one. Qed.
Lemma Rpower_00 : Rpower s 0 = 1.
Proof. unfold Rpower. rewrite Rmult_0_l. apply exp_0. Qed.
Lemma avals_0 x : good s 0 x -> avals x = phys x /\ comov x = phys x.
Proof.
  intros [F C V]. unfold phys, comov. rewrite F. destruct (acm x) as [[|]|]; [| |congruence]; rewrite Rpower_00.
  - split; [symmetry|]; (erewrite map_ext; [apply map_one|]; intros a; cbv beta; lra) || idtac. rewrite map_one. reflexivity.
  - split; [reflexivity|]. rewrite <- (map_id (avals x)) at 2. apply map_ext. intros a. field.
Qed.
Lemma into_0 cm x v : worth 0 x v -> exists r, into cm x = Ok r /\ avals r = v.
Proof.
  intros X. pose proof (worth_0 x v X) as P. destruct X as [G _]. pose proof (avals_0 x G) as [A C]. unfold into. destruct cm as [[|]|].
  - rewrite (conv_c_good s 0 x G). eexists. split; [reflexivity|]. cbn. congruence.
  - rewrite (conv_p_good s 0 x G). eexists. split; [reflexivity|]. exact P.
  - exists x. split; [reflexivity|]. congruence.
Qed.
Lemma worth_picked {A} k x (g : A -> R) mask l : worth k x (map g l) ->
  match pick mask l with Err e => picked mask x = Err e | Ok v => exists r, picked mask x = Ok r /\ worth k r (map g v) end.
Proof.
  intros [G P]. unfold picked.
  assert (H : exists u, phys x = map u (avals x) /\ forall v, phys (same_label x v) = map u v).
  { destruct G as [F C V]. unfold phys, same_label. cbn [acf acm avals]. rewrite F. destruct (acm x) as [[|]|]; [| |congruence].
    - eexists. split; reflexivity.
    - exists (fun a => a). split; [symmetry; apply map_id|]. intros v. symmetry. apply map_id. }
  destruct H as (u & U & W). rewrite P, map_map in U.
  assert (E : match pick mask (avals x) with Ok v => Ok (map u v) | Err e => Err e end = match pick mask l with Ok v => Ok (map (fun p => unit_size k * g p) v) | Err e => Err e end).
  { rewrite <- pick_map, <- U. apply pick_map. }
  destruct (pick mask (avals x)) as [v|e], (pick mask l) as [w|e']; try discriminate E; cbn [bind].
  - injection E as E. eexists. split; [reflexivity|]. split.
    + destruct G as [A1 B1 V1]. constructor; cbn; assumption.
    + now rewrite W, E, map_map.
  - now injection E as ->.
Qed.

(** * Coordinates *)

Definition columns (c : cols) (ps : list part) : Prop := num 1 (col0 c) (map p_x ps) /\ num 1 (col1 c) (map p_y ps) /\ num 1 (col2 c) (map p_z ps).

Lemma sub_col (g : part -> R) x c a ps : num 1 x (map g ps) -> num 1 c [a] -> exists r, binop Bsub (OArr x) (OArr c) = Ok r /\ num 1 r (map (fun p => g p - a) ps).
Proof. intros X C. apply (num_same2 Bsub 1 x (map g ps) c [a]); [cbn; auto|exact X|exact C|]. exact (bc_col1 Rminus g ps a). Qed.
Lemma add_col (g : part -> R) x c a ps : num 1 x (map g ps) -> num 1 c [a] -> exists r, binop Badd (OArr x) (OArr c) = Ok r /\ num 1 r (map (fun p => g p + a) ps).
Proof. intros X C. apply (num_same2 Badd 1 x (map g ps) c [a]); [cbn; auto|exact X|exact C|]. exact (bc_col1 Rplus g ps a). Qed.
Lemma add_cols (g h : part -> R) x y ps : num 1 x (map g ps) -> num 1 y (map h ps) -> exists r, binop Badd (OArr x) (OArr y) = Ok r /\ num 1 r (map (fun p => g p + h p) ps).
Proof. intros X Y. apply (num_same2 Badd 1 x (map g ps) y (map h ps)); [cbn; auto|exact X|exact Y|]. exact (bc_cols Rplus g h ps). Qed.
Lemma rem_col (g : part -> R) x c a ps : num 1 x (map g ps) -> num 1 c [a] -> exists r, remop (OArr x) (OArr c) = Ok r /\ num 1 r (map (fun p => rmod (g p) a) ps).
Proof. intros X C. apply (num_rem 1 x (map g ps) c [a]); [exact X|exact C|]. exact (bc_col1 rmod g ps a). Qed.
Lemma row_col (m0 m1 m2 : R) (f g h : part -> R) x y z ps : num 1 x (map f ps) -> num 1 y (map g ps) -> num 1 z (map h ps) ->
  exists r, row_times (m0, m1, m2) (x, y, z) = Ok r /\ num 1 r (map (fun p => m0 * f p + m1 * g p + m2 * h p) ps).
Proof.
  intros X Y W. unfold row_times.
  destruct (num_scaled 1 x _ m0 X) as (a & E1 & A). rewrite E1. cbn [bind]. destruct (num_scaled 1 y _ m1 Y) as (c & E2 & C). rewrite E2. cbn [bind]. destruct (num_scaled 1 z _ m2 W) as (d & E3 & D). rewrite E3. cbn [bind].
  rewrite map_map in A, C, D. destruct (add_cols _ _ _ _ _ A C) as (ac & E4 & AC). rewrite E4. cbn [bind]. exact (add_cols _ _ _ _ _ AC D).
Qed.

Lemma placed_num periodic boxsize rotation (c : cols) ps : columns c ps -> good s 1 boxsize -> length (avals boxsize) = 3%nat -> good_rotation s rotation ->
  match placed periodic (triple (numbers b boxsize)) (rotation_numbers b rotation) ps with
  | Err e => f_placed periodic boxsize rotation c = Err e
  | Ok (qs, st) => exists c1 c2, f_placed periodic boxsize rotation c = Ok (c1, c2) /\ columns c1 qs /\ columns c2 st /\ map p_m qs = map p_m ps /\ map p_h qs = map p_h ps
  end.
Proof.
  destruct c as [[x y] z]. intros (X & Y & W) B L G. cbn [col0 col1 col2] in X, Y, W. unfold f_placed, placed. destruct rotation as [[matrix center]|]; cbn [rotation_numbers].
  - destruct periodic; [reflexivity|]. destruct G as [G GL]. rewrite (num_acm _ _ _ X). destruct (in_frame_num 1 center G) as (q & E & Q). rewrite E. cbn [bind]. clear E.
    rewrite <- (numbers_length 1 _ G) in GL. destruct (three _ GL) as (c0 & c1 & c2 & V). rewrite V in *. cbn [triple].
    destruct (item_num 1 q _ 0 _ Q eq_refl) as (q0 & E0 & Q0). destruct (item_num 1 q _ 1 _ Q eq_refl) as (q1 & E1 & Q1). destruct (item_num 1 q _ 2 _ Q eq_refl) as (q2 & E2 & Q2). rewrite E0, E1, E2. cbn [bind].
    destruct (sub_col _ _ _ _ _ X Q0) as (dx & F0 & DX). destruct (sub_col _ _ _ _ _ Y Q1) as (dy & F1 & DY). destruct (sub_col _ _ _ _ _ W Q2) as (dz & F2 & DZ). rewrite F0, F1, F2. cbn [bind].
    destruct matrix as [[[[a0 a1] a2] [[a3 a4] a5]] [[a6 a7] a8]].
    destruct (row_col a0 a1 a2 _ _ _ _ _ _ _ DX DY DZ) as (rx & H0 & RX). destruct (row_col a3 a4 a5 _ _ _ _ _ _ _ DX DY DZ) as (ry & H1 & RY). destruct (row_col a6 a7 a8 _ _ _ _ _ _ _ DX DY DZ) as (rz & H2 & RZ). rewrite H0, H1, H2. cbn [bind].
    destruct (add_col _ _ _ _ _ RX Q0) as (sx & K0 & SX). destruct (add_col _ _ _ _ _ RY Q1) as (sy & K1 & SY). destruct (add_col _ _ _ _ _ RZ Q2) as (sz & K2 & SZ). rewrite K0, K1, K2. cbn [bind].
    eexists _, _. split; [reflexivity|]. split; [|split; [repeat split; (apply X || apply Y || apply W)|split; rewrite map_map; reflexivity]].
    unfold columns. cbn [col0 col1 col2]. rewrite !map_map. split; [exact SX|]. split; [exact SY|exact SZ].
  - destruct periodic; cbn [bind].
    + rewrite (num_acm _ _ _ X). destruct (to_cm_num 1 boxsize B) as (q & E & Q). rewrite E. cbn [bind]. clear E.
      rewrite <- (numbers_length 1 _ B) in L. destruct (three _ L) as (c0 & c1 & c2 & V). rewrite V in *. cbn [triple].
      destruct (item_num 1 q _ 0 _ Q eq_refl) as (q0 & E0 & Q0). destruct (item_num 1 q _ 1 _ Q eq_refl) as (q1 & E1 & Q1). destruct (item_num 1 q _ 2 _ Q eq_refl) as (q2 & E2 & Q2). rewrite E0, E1, E2. cbn [bind].
      destruct (rem_col _ _ _ _ _ X Q0) as (dx & F0 & DX). destruct (rem_col _ _ _ _ _ Y Q1) as (dy & F1 & DY). destruct (rem_col _ _ _ _ _ W Q2) as (dz & F2 & DZ). rewrite F0, F1, F2. cbn [bind].
      eexists _, _. split; [reflexivity|]. unfold columns. cbn [col0 col1 col2]. rewrite !map_map. split; [split; [exact DX|split; [exact DY|exact DZ]]|]. split; [split; [exact DX|split; [exact DY|exact DZ]]|]. split; reflexivity.
    + eexists _, _. split; [reflexivity|]. unfold columns. cbn [col0 col1 col2]. auto.
Qed.

Lemma combine_maps {A B C} (f : A -> B) (g : A -> C) l : combine (map f l) (map g l) = map (fun p => (f p, g p)) l.
Proof. induction l as [|a l IH]; [reflexivity|]. cbn [map combine]. now rewrite IH. Qed.

Lemma depth_num (periodic : bool) (boxsize : carr) (i : info) (fi : finfo) (mask : option (list bool)) (z : carr) (qs : list part) : known i fi -> good s 1 boxsize -> length (avals boxsize) = 3%nat -> num 1 z (map p_z qs) ->
  f_depth periodic boxsize fi mask z = depth_mask periodic (triple (numbers b boxsize)) i mask qs.
Proof.
  intros K B L W. unfold f_depth, depth_mask. pose proof (numbers_worth 1 _ B) as BW. rewrite <- (numbers_length 1 _ B) in L. destruct (three _ L) as (bx & by_ & lz & V). rewrite V in *. cbn [triple].
  rewrite (k_has _ _ K). destruct (i_has_z i); [|reflexivity]. pose proof (num_worth _ _ _ W) as ZW. pose proof (num_worth _ _ _ (k_zmin _ _ K)) as Z0. pose proof (num_worth _ _ _ (k_zmax _ _ K)) as Z1. pose proof (num_worth _ _ _ (k_zrange _ _ K)) as ZR.
  destruct periodic; cbn [andb].
  - destruct (worth_item 1 _ _ 2 _ BW eq_refl) as (q & E & Q). rewrite E. cbn [bind]. rewrite (worth_cmp Cgt 1 _ _ _ _ ZR Q). cbn [broadcast map2 length Nat.eqb truth bind cfun].
    replace (Rltb lz (i_zrange i)) with (negb (leb (i_zrange i) lz)) by (unfold Rltb, leb; destruct (Rlt_dec lz (i_zrange i)), (Rle_dec (i_zrange i) lz); (reflexivity || lra)).
    change (broadcast (cfun Cgt) [i_zrange i] [lz]) with (@Ok (list bool) [Rltb lz (i_zrange i)]) || idtac.
    destruct (leb (i_zrange i) lz); cbn [negb bind]; [|reflexivity].
    destruct (worth_rem 1 _ _ _ _ [rmod (i_zmax i) lz] Z1 Q eq_refl) as (top & E1 & T). destruct (worth_rem 1 _ _ _ _ [rmod (i_zmin i) lz] Z0 Q eq_refl) as (bot & E2 & T2). rewrite E1. cbn [bind]. rewrite E2. cbn [bind].
    rewrite (worth_cmp Cle 1 _ _ _ _ T T2), (worth_cmp Cle 1 _ _ _ _ ZW T), (worth_cmp Cge 1 _ _ _ _ ZW T2). rewrite !bc_col1. cbn [broadcast map2 length Nat.eqb truth bind cfun].
    rewrite combine_maps, map_map. cbn [fst snd]. unfold in_depth. change Rleb with leb. destruct (leb (rmod (i_zmax i) lz) (rmod (i_zmin i) lz)); reflexivity.
  - rewrite (worth_cmp Cle 1 _ _ _ _ ZW Z1), (worth_cmp Cge 1 _ _ _ _ ZW Z0). rewrite !bc_col1. cbn [bind]. rewrite combine_maps, map_map. reflexivity.
Qed.

(** * Normalised coordinates *)

Definition box_list (o : option carr) (l : option R) : Prop := match o, l with Some q, Some v => num 0 q [v] | None, None => True | _, _ => False end.
Definition rem_opt (l : option R) (x : R) : R := match l with Some v => rmod x v | None => x end.

Lemma normed_worth (g : part -> R) x range r0 box l ps : worth 1 x (map g ps) -> num 1 range [r0] -> box_list box l ->
  exists r, f_normed x None range box = Ok r /\ worth 0 r (map (fun p => rem_opt l (g p / r0)) ps).
Proof.
  intros X D BL. unfold f_normed. cbn [bind]. destruct (worth_div 1 1 0 _ _ _ _ _ ltac:(ring) X (num_worth _ _ _ D) (bc_col1 Rdiv g ps r0)) as (q & E & Q). rewrite E. cbn [bind].
  destruct box as [bq|], l as [v|]; cbn in BL; try contradiction.
  - exact (worth_rem 0 _ _ _ _ _ Q (num_worth _ _ _ BL) (bc_col1 rmod _ ps v)).
  - exists q. split; [reflexivity|exact Q].
Qed.
Lemma normed_low (g : part -> R) x low a range r0 box l ps : num 1 x (map g ps) -> num 1 low [a] -> num 1 range [r0] -> box_list box l ->
  exists r, f_normed x (Some low) range box = Ok r /\ worth 0 r (map (fun p => rem_opt l ((g p - a) / r0)) ps).
Proof.
  intros X A D BL. destruct (sub_col g x low a ps X A) as (q & E & Q).
  destruct (normed_worth _ q range r0 box l ps (num_worth _ _ _ Q) D BL) as (r & F & W). exists r. split; [|exact W]. unfold f_normed in *. rewrite E. exact F.
Qed.
Lemma div_h (g : part -> R) h range r0 ps : worth 1 h (map g ps) -> num 1 range [r0] -> exists r, binop Bdiv (OArr h) (OArr range) = Ok r /\ worth 0 r (map (fun p => g p / r0) ps).
Proof. intros X D. exact (worth_div 1 1 0 _ _ _ _ _ ltac:(ring) X (num_worth _ _ _ D) (bc_col1 Rdiv g ps r0)). Qed.

Lemma known_box_cases periodic i fi bx by_ bz : known_box periodic i fi -> i_box i = (bx, by_, bz) ->
  box_list (box_col col0 (f_box fi)) (if periodic then Some bx else None) /\ box_list (box_col col1 (f_box fi)) (if periodic then Some by_ else None) /\ box_list (box_col col2 (f_box fi)) (if periodic then Some bz else None)
  /\ box_val col0 (f_box fi) = bx /\ box_val col1 (f_box fi) = by_ /\ box_val col2 (f_box fi) = bz.
Proof.
  unfold known_box. intros H E. rewrite E in H. destruct periodic.
  - destruct H as (x & y & z & -> & X & Y & W). cbn. repeat (split; [assumption || (now destruct X as [_ ->]) || (now destruct Y as [_ ->])|]). now destruct W as [_ ->].
  - destruct H as [-> H]. injection H as -> -> ->. cbn. auto 10.
Qed.
Lemma rem_opt_if (periodic : bool) (l x : R) : rem_opt (if periodic then Some l else None) x = rem_if periodic x l.
Proof. now destruct periodic. Qed.

(** * Labels of the image *)

Hypothesis scale_pos : 0 < s.

Lemma norm_convert d f n v : num (INR d) n [v] -> exists r, in_frame (Some f) n = Ok r /\ acf r = lcf s (INR d) /\ acm r = Some f /\ avals r = [convert s d b f v].
Proof.
  intros N. pose proof (num_good _ _ _ N) as G. pose proof (num_acm _ _ _ N) as C. unfold in_frame. destruct N as [_ V].
  assert (E : Rpower s (INR d) = s ^ d) by now apply Rpower_pow.
  destruct f; [rewrite (to_c_good s _ n G)|rewrite (to_p_good s _ n G)]; eexists; (split; [reflexivity|]); cbn [set_cm acf acm avals]; (split; [apply (g_cf _ _ _ G)|split; [reflexivity|]]).
  - unfold comov. rewrite C, (g_cf _ _ _ G), V. destruct b; [reflexivity|]. cbn [map convert]. rewrite E. reflexivity.
  - unfold phys. rewrite C, (g_cf _ _ _ G), V. destruct b; [|reflexivity]. cbn [map convert]. rewrite E. f_equal. ring.
Qed.

Lemma restored_num (j : R) (d : nat) (m : operand) (norm : carr) (v : R) (sh : shape) (img : image) (frame : option bool) : good_field s j m -> num (INR d) norm [v] -> frame = field_frame m ->
  exists fp, restored m norm sh img = Ok fp /\ fp_shape fp = sh /\ (forall p, fp_image fp p = normalise s d b frame v img p) /\ fp_cf fp = picture_label s j (INR d) m /\ fp_cm fp = frame.
Proof.
  intros G N ->. unfold restored, normalise. destruct m as [m|w]; cbn [field_frame picture_label good_field] in *.
  - destruct (acm m) as [f|] eqn:C.
    + destruct (norm_convert d f norm v N) as (r & E & R1 & R2 & R3). rewrite E. cbn [bind].
      assert (H : forall u, exists t cp, binop Bdiv (OArr (same_label m [u])) (OArr r) = Ok (mkarr [u / convert s d b f v] (lcf s (j - INR d)) (Some f) t cp)).
      { intros u. unfold binop, ufunc2, prepare. cbn [map op_cm filter fst snd same_label acm]. rewrite C, R2. destruct f; cbn [same_label is_true is_none is_false andb orb existsb forallb bind op_cf p_args p_cm p_vt p_comp acf op_vt map op_comp bhandler op_vals avals avt acomp]; rewrite G, R1; fold (lcf s j); rewrite h_div_ok; cbn [bind]; rewrite R3; eexists _, _; reflexivity. }
      destruct (H 0) as (t & cp & H0). rewrite H0. cbn [bind]. eexists. split; [reflexivity|]. cbn [fp_shape fp_image fp_cf fp_cm acf acm]. split; [reflexivity|]. split; [|split; reflexivity]. intros p. destruct (H (img p)) as (t' & cp' & H'). rewrite H'. reflexivity.
    + cbn [bind].
      assert (H : forall u, exists t cp, binop Bdiv (OArr (same_label m [u])) (OPlain [1]) = Ok (mkarr [u / 1] (lcf s j) None t cp)).
      { intros u. unfold binop, ufunc2, prepare. cbn [map op_cm filter fst snd same_label acm]. rewrite C. cbn. rewrite G. cbn. eauto. }
      destruct (H 0) as (t & cp & H0). rewrite H0. cbn [bind]. eexists. split; [reflexivity|]. cbn [fp_shape fp_image fp_cf fp_cm acf acm]. split; [reflexivity|]. split; [|split; reflexivity]. intros p. destruct (H (img p)) as (t' & cp' & H'). rewrite H'. reflexivity.
  - eexists. split; [reflexivity|]. cbn. auto.
Qed.

Lemma npow3 (x : R) : npow x 3 = x ^ 3.
Proof.
  unfold npow. destruct (Rlt_dec 0 x) as [H|H].
  - replace 3 with (INR 3) by (cbn; ring). now apply Rpower_pow.
  - destruct (Req_EM_T x 0) as [->|H']; [destruct (Req_EM_T 3 0); [lra|ring]|].
    assert (U : up 3 = 4%Z) by (symmetry; apply tech_up; lra). rewrite U. change (4 - 1)%Z with 3%Z. cbv zeta. destruct (Req_EM_T 3 (IZR 3)) as [_|N]; [reflexivity|]. exfalso. apply N. reflexivity.
Qed.

Lemma num_cube x v : num 1 x [v] -> exists r, powop (OArr x) (OPlain [3]) = Ok r /\ num (INR 3) r [v ^ 3].
Proof.
  intros X. unfold powop. cbn [op_vals].
  assert (P : exists cp, prepare true [OArr x; OPlain [3]] = Ok (mkprep [OArr x; OPlain [3]] [acf x; None] (Some b) true cp)).
  { destruct X as [[[F C V] A] _]. unfold prepare. cbn [map op_cm filter fst snd]. rewrite A. cbn [map snd forallb op_vt]. rewrite V. destruct b; cbn [is_true is_none is_false andb orb existsb]; eexists; reflexivity. }
  destruct P as (cp & P). unfold ufunc2. rewrite P. cbn [bind op_cf p_args op_vals p_cm p_vt p_comp]. rewrite (num_acf _ _ _ X). rewrite h_power_ok. cbn [bind]. destruct X as [_ ->]. cbn [broadcast length Nat.eqb map2 bind].
  unfold broadcast. cbn [length Nat.eqb map2 bind]. rewrite npow3. eexists. split; [reflexivity|]. apply (num_exp (1 * 3)); [cbn; ring|]. apply num_make.
Qed.
Lemma num_area x v y w : num 1 x [v] -> num 1 y [w] -> exists r, binop Bmul (OArr x) (OArr y) = Ok r /\ num (INR 2) r [v * w].
Proof. intros X Y. destruct (num_mul 1 1 x _ y _ [v * w] X Y eq_refl) as (r & E & N). exists r. split; [exact E|]. apply (num_exp (1 + 1)); [cbn; ring|exact N]. Qed.
Lemma num_volume x v y w : num (INR 2) x [v] -> num 1 y [w] -> exists r, binop Bmul (OArr x) (OArr y) = Ok r /\ num (INR 3) r [v * w].
Proof. intros X Y. destruct (num_mul (INR 2) 1 x _ y _ [v * w] X Y eq_refl) as (r & E & N). exists r. split; [exact E|]. apply (num_exp (INR 2 + 1)); [cbn; ring|exact N]. Qed.
Lemma pixels_num n range v mr w : num 1 range [v] -> num 1 mr [w] -> f_pixels n range mr = Ok (pixels n v w).
Proof.
  intros X Y. unfold f_pixels. destruct (num_div 1 1 _ _ _ _ [v / w] X Y eq_refl) as (q & E & Q). rewrite E. cbn [bind]. destruct (num_scaled _ _ _ (IZR n) Q) as (r & F & N). rewrite F. cbn [bind]. unfold int_ceil. destruct N as [_ ->]. reflexivity.
Qed.
Lemma pixels_slice_num n range v mr w : num 1 range [v] -> num 1 mr [w] -> f_pixels_slice n range mr = Ok (pixels_slice n v w).
Proof.
  intros X Y. unfold f_pixels_slice. destruct (num_scaled _ _ _ (IZR n) X) as (r & F & N). rewrite F. cbn [bind]. cbn [map] in N. destruct (num_div 1 1 _ _ _ _ [IZR n * v / w] N Y eq_refl) as (q & E & Q). rewrite E. cbn [bind]. unfold int_ceil. destruct Q as [_ ->]. reflexivity.
Qed.

Lemma op_picked_num j dim (m : operand) mask (qs : list part) : op_vals m = map p_m qs -> good_field s j m ->
  match pick mask qs with
  | Err e => op_picked mask m = Err e
  | Ok v => exists m', op_picked mask m = Ok m' /\ op_vals m' = map p_m v /\ good_field s j m' /\ field_frame m' = field_frame m /\ picture_label s j dim m' = picture_label s j dim m
  end.
Proof.
  intros V G. destruct m as [x|w]; cbn [op_vals op_picked good_field] in *.
  - unfold picked. rewrite V, pick_map. destruct (pick mask qs) as [v|e]; cbn [bind]; [|reflexivity]. eexists. split; [reflexivity|]. cbn. auto.
  - rewrite V, pick_map. destruct (pick mask qs) as [v|e]; cbn [bind]; [|reflexivity]. eexists. split; [reflexivity|]. cbn. auto.
Qed.

Lemma particles_columns j n d : good_data s b j n d -> columns (d_coords d) (particles b d) /\ op_vals (d_m d) = map p_m (particles b d) /\ worth 1 (d_h d) (map p_h (particles b d)).
Proof.
  intros [X Y W NX NY NZ B NB H NH M NM]. pose proof (numbers_length 1 _ H) as NL.
  destruct (parts_of_cols n (avals (col0 (d_coords d))) (avals (col1 (d_coords d))) (avals (col2 (d_coords d))) (op_vals (d_m d)) (numbers b (d_h d)) NX NY NZ NM ltac:(lia)) as (E1 & E2 & E3 & E4 & E5). fold (particles b d) in *.
  split; [|split; [now symmetry|rewrite E5; now apply numbers_worth]]. repeat split; cbn [fst snd]; try (apply X || apply Y || apply W); now symmetry.
Qed.

Lemma columns_x c ps : columns c ps -> num 1 (col0 c) (map p_x ps). Proof. now intros (A & _). Qed.
Lemma columns_stored c ps : columns c ps -> stored_in s b 1 (col0 c) /\ stored_in s b 1 (col1 c) /\ stored_in s b 1 (col2 c) /\ avals (col0 c) = map p_x ps /\ avals (col1 c) = map p_y ps /\ avals (col2 c) = map p_z ps.
Proof. intros ((A & A') & (B & B') & (C & C')). auto 10. Qed.

Theorem project_num backend j dn n periodic d region rotation mask : good_data s b j dn d -> good_region s region -> good_rotation s rotation ->
  matches s b j 2 (d_m d)
    (project backend s b (field_frame (d_m d)) n periodic (triple (numbers b (d_box d))) (region_numbers b region) (rotation_numbers b rotation) mask (particles b d))
    (f_project backend n periodic d region rotation mask).
Proof.
  intros D G GR. destruct (particles_columns j dn d D) as (PC & PM & PH). unfold f_project, project.
  rewrite (num_acm _ _ _ (columns_x _ _ PC)).
  pose proof (region_info_num false periodic (d_box d) region (gd_box _ _ _ _ _ D) (gd_nbox _ _ _ _ _ D) G) as RI. destruct (region_info _ _ _ _) as [i|e]; [|cbn [bind matches]; now rewrite RI].
  destruct RI as (fi & E & K & KB). rewrite E. cbn [bind]. clear E.
  pose proof (placed_num periodic (d_box d) rotation (d_coords d) _ PC (gd_box _ _ _ _ _ D) (gd_nbox _ _ _ _ _ D) GR) as PL. destruct (placed _ _ _ _) as [[qs st]|e]; [|cbn [bind matches]; now rewrite PL].
  destruct PL as (c1 & c2 & E & C1 & C2 & QM & QH). rewrite E. cbn [bind]. clear E. destruct c1 as [[x y] z]. destruct C1 as (X & Y & W). cbn [col0 col1 col2] in X, Y, W.
  rewrite (depth_num periodic (d_box d) i fi mask z qs K (gd_box _ _ _ _ _ D) (gd_nbox _ _ _ _ _ D) W). destruct (depth_mask _ _ _ _ _) as [mk|e]; cbn [bind]; [|reflexivity].
  rewrite <- QM in PM. rewrite <- QH in PH.
  pose proof (picked_num 1 x p_x mk qs X) as X'. pose proof (picked_num 1 y p_y mk qs Y) as Y'. pose proof (picked_num 1 z p_z mk qs W) as W'. pose proof (worth_picked 1 _ p_h mk qs PH) as H'. pose proof (op_picked_num j 2 (d_m d) mk qs PM (gd_m _ _ _ _ _ D)) as M'.
  destruct (pick mk qs) as [us|e]; [|cbn [bind matches]; rewrite X'; reflexivity].
  destruct X' as (x' & EX & X'). destruct Y' as (y' & EY & Y'). destruct W' as (z' & EZ & W'). destruct H' as (h' & EH & H'). destruct M' as (m' & EM & MV & MG & MF & MP).
  destruct (i_box i) as [[bx by_] bz] eqn:BX. destruct (known_box_cases periodic i fi bx by_ bz KB BX) as (L0 & L1 & L2 & V0 & V1 & V2). cbn [bind].
  rewrite EX. cbn [bind]. destruct (normed_low _ _ _ _ _ _ _ _ _ X' (k_xmin _ _ K) (k_max _ _ K) L0) as (nx & E1 & NX). rewrite E1. cbn [bind].
  rewrite EY. cbn [bind]. destruct (normed_low _ _ _ _ _ _ _ _ _ Y' (k_ymin _ _ K) (k_max _ _ K) L1) as (ny & E2 & NY). rewrite E2. cbn [bind].
  rewrite EM. cbn [bind]. rewrite EH. cbn [bind]. destruct (div_h _ _ _ _ _ H' (k_max _ _ K)) as (nh & E3 & NH). rewrite E3. cbn [bind].
  destruct (num_area _ _ _ _ (k_xrange _ _ K) (k_yrange _ _ K)) as (nm & E4 & NM). rewrite E4. cbn [bind].
  destruct (into_0 (op_frame m') _ _ NX) as (ix & E5 & IX). destruct (into_0 (op_frame m') _ _ NY) as (iy & E6 & IY). destruct (into_0 (op_frame m') _ _ NH) as (ih & E7 & IH). rewrite E5. cbn [bind]. rewrite E6. cbn [bind]. rewrite E7. cbn [bind]. rewrite EZ. cbn [bind].
  rewrite V0, V1, IX, IY, IH, MV. replace (avals z') with (map p_z us) by (destruct W' as [_ W']; now symmetry).
  rewrite parts_of_maps.
  replace (map (normed2 periodic i) us) with (map (fun p => mkpart (rem_opt (if periodic then Some bx else None) ((p_x p - i_xmin i) / i_max i)) (rem_opt (if periodic then Some by_ else None) ((p_y p - i_ymin i) / i_max i)) (p_z p) (p_m p) (p_h p / i_max i)) us) by (apply map_ext; intros p; unfold normed2; now rewrite BX, !rem_opt_if).
  destruct (backend n bx by_ _) as [img|e]; cbn [bind]; [|reflexivity].
  rewrite (pixels_num n _ _ _ _ (k_xrange _ _ K) (k_max _ _ K)). cbn [bind]. rewrite (pixels_num n _ _ _ _ (k_yrange _ _ K) (k_max _ _ K)). cbn [bind].
  destruct (restored_num j 2 m' nm _ [stop_index n (pixels n (i_xrange i) (i_max i)); stop_index n (pixels n (i_yrange i) (i_max i))] img (field_frame (d_m d)) MG NM (eq_sym MF)) as (fp & E8 & F1 & F2 & F3 & F4). rewrite E8. cbn [bind matches].
  exists fp, c2. split; [reflexivity|]. cbn [pic_shape pic_image]. split; [exact F1|]. split; [exact F2|]. split; [|split; [exact F4|exact (columns_stored _ _ C2)]].
  rewrite F3. replace (INR 2) with 2 by (cbn; ring). exact MP.
Qed.

Theorem slice_num backend j dn n z_slice periodic d region rotation mask : good_data s b j dn d -> good_region s region -> good_rotation s rotation -> good_height s z_slice ->
  matches s b j 3 (d_m d)
    (slice_grid backend s b (field_frame (d_m d)) n (height_number b z_slice) periodic (triple (numbers b (d_box d))) (region_numbers b region) (rotation_numbers b rotation) mask (particles b d))
    (f_slice backend n z_slice periodic d region rotation mask).
Proof.
  intros D G GR GZ. destruct (particles_columns j dn d D) as (PC & PM & PH). unfold f_slice, slice_grid.
  pose proof (numbers_worth 1 _ (gd_box _ _ _ _ _ D)) as BW. pose proof (gd_nbox _ _ _ _ _ D) as BL. rewrite <- (numbers_length 1 _ (gd_box _ _ _ _ _ D)) in BL. destruct (three _ BL) as (b0 & b1 & b2 & BV). rewrite BV in BW.
  assert (HZ : exists q, match z_slice with Some z => Ok z | None => do b <- item (d_box d) 0; Ok (zero_like b) end = Ok q /\ worth 1 q [match height_number b z_slice with Some z => z | None => 0 end]).
  { destruct z_slice as [z|]; cbn [height_number good_height] in *.
    - exists z. split; [reflexivity|]. destruct GZ as [GZ LZ]. pose proof (numbers_worth 1 _ GZ) as ZW. rewrite <- (numbers_length 1 _ GZ) in LZ. destruct (numbers b z) as [|v [|? ?]]; try discriminate LZ. exact ZW.
    - destruct (worth_item 1 _ _ 0 _ BW eq_refl) as (q & E & Q). rewrite E. cbn [bind]. eexists. split; [reflexivity|]. destruct Q as [[A1 A2 A3] A4]. split; [constructor; cbn; assumption|]. cbn. unfold phys, zero_like, same_label. cbn. rewrite A1. destruct (acm q) as [[|]|]; cbn; rewrite ?Rmult_0_r; reflexivity. }
  destruct HZ as (qz & EQ & QZ). rewrite EQ. cbn [bind]. clear EQ.
  rewrite (num_acm _ _ _ (columns_x _ _ PC)).
  pose proof (region_info_num false periodic (d_box d) region (gd_box _ _ _ _ _ D) (gd_nbox _ _ _ _ _ D) G) as RI. destruct (region_info _ _ _ _) as [i|e]; [|cbn [bind matches]; now rewrite RI].
  destruct RI as (fi & E & K & KB). rewrite E. cbn [bind]. clear E.
  pose proof (placed_num periodic (d_box d) rotation (d_coords d) _ PC (gd_box _ _ _ _ _ D) (gd_nbox _ _ _ _ _ D) GR) as PL. destruct (placed _ _ _ _) as [[qs st]|e]; [|cbn [bind matches]; now rewrite PL].
  destruct PL as (c1 & c2 & E & C1 & C2 & QM & QH). rewrite E. cbn [bind]. clear E. destruct c1 as [[x y] z]. destruct C1 as (X & Y & W). cbn [col0 col1 col2] in X, Y, W.
  assert (HC : exists q, match rotation with Some (_, center) => item center 2 | None => do b <- item (d_box d) 2; Ok (zero_like b) end = Ok q /\ worth 1 q [match rotation_numbers b rotation with Some (_, (_, _, c)) => c | None => 0 end]).
  { destruct rotation as [[mt ct]|]; cbn [rotation_numbers good_rotation] in *.
    - destruct GR as [GC LC]. pose proof (numbers_worth 1 _ GC) as CW. rewrite <- (numbers_length 1 _ GC) in LC. destruct (three _ LC) as (k0 & k1 & k2 & CV). rewrite CV in *. cbn [triple]. exact (worth_item 1 _ _ 2 _ CW eq_refl).
    - destruct (worth_item 1 _ _ 2 _ BW eq_refl) as (q & E & Q). rewrite E. cbn [bind]. eexists. split; [reflexivity|]. destruct Q as [[A1 A2 A3] A4]. split; [constructor; cbn; assumption|]. cbn. unfold phys, zero_like, same_label. cbn. rewrite A1. destruct (acm q) as [[|]|]; cbn; rewrite ?Rmult_0_r; reflexivity. }
  destruct HC as (qc & EQ & QC). rewrite EQ. cbn [bind]. clear EQ.
  rewrite (pixels_slice_num n _ _ _ _ (k_xrange _ _ K) (k_max _ _ K)). cbn [bind]. rewrite (pixels_slice_num n _ _ _ _ (k_yrange _ _ K) (k_max _ _ K)). cbn [bind].
  rewrite <- QM in PM. rewrite <- QH in PH.
  pose proof (picked_num 1 x p_x mask qs X) as X'. pose proof (picked_num 1 y p_y mask qs Y) as Y'. pose proof (picked_num 1 z p_z mask qs W) as W'. pose proof (worth_picked 1 _ p_h mask qs PH) as H'. pose proof (op_picked_num j 3 (d_m d) mask qs PM (gd_m _ _ _ _ _ D)) as M'.
  destruct (pick mask qs) as [us|e]; [|cbn [bind matches]; rewrite X'; reflexivity].
  destruct X' as (x' & EX & X'). destruct Y' as (y' & EY & Y'). destruct W' as (z' & EZ & W'). destruct H' as (h' & EH & H'). destruct M' as (m' & EM & MV & MG & MF & MP).
  destruct (i_box i) as [[bx by_] bz] eqn:BX. destruct (known_box_cases periodic i fi bx by_ bz KB BX) as (L0 & L1 & L2 & V0 & V1 & V2). cbn [bind].
  rewrite EX. cbn [bind]. destruct (normed_low _ _ _ _ _ _ _ _ _ X' (k_xmin _ _ K) (k_max _ _ K) L0) as (nx & E1 & NX). rewrite E1. cbn [bind].
  rewrite EY. cbn [bind]. destruct (normed_low _ _ _ _ _ _ _ _ _ Y' (k_ymin _ _ K) (k_max _ _ K) L1) as (ny & E2 & NY). rewrite E2. cbn [bind].
  rewrite EZ. cbn [bind]. destruct (normed_worth _ _ _ _ _ _ _ (num_worth _ _ _ W') (k_max _ _ K) L2) as (nz & E2' & NZ). rewrite E2'. cbn [bind].
  set (zsum := match height_number b z_slice with Some z => z | None => 0 end + match rotation_numbers b rotation with Some (_, (_, _, c)) => c | None => 0 end).
  destruct (worth_add 1 _ _ _ _ [zsum] QZ QC eq_refl) as (sm & E9 & SM). rewrite E9. cbn [bind].
  destruct (normed_worth (fun _ => zsum) sm _ _ _ _ [mkpart 0 0 0 0 0] SM (k_max _ _ K) L2) as (ns & E10 & NS). rewrite E10. cbn [bind].
  rewrite EM. cbn [bind]. rewrite EH. cbn [bind]. destruct (div_h _ _ _ _ _ H' (k_max _ _ K)) as (nh & E3 & NH). rewrite E3. cbn [bind].
  destruct (num_cube _ _ (k_max _ _ K)) as (nm & E4 & NM). rewrite E4. cbn [bind].
  destruct (into_0 (op_frame m') _ _ NX) as (ix & E5 & IX). destruct (into_0 (op_frame m') _ _ NY) as (iy & E6 & IY). destruct (into_0 (op_frame m') _ _ NH) as (ih & E7 & IH). rewrite E5. cbn [bind]. rewrite E6. cbn [bind]. rewrite E7. cbn [bind].
  rewrite V0, V1, V2, IX, IY, IH, MV.
  replace (avals nz) with (map (fun p => rem_opt (if periodic then Some bz else None) (p_z p / i_max i)) us) by (rewrite (proj1 (avals_0 nz (proj1 NZ))); symmetry; now apply worth_0).
  replace (avals ns) with (map (fun _ : part => rem_opt (if periodic then Some bz else None) (zsum / i_max i)) [mkpart 0 0 0 0 0]) by (rewrite (proj1 (avals_0 ns (proj1 NS))); symmetry; now apply worth_0).
  cbn [map hd]. rewrite rem_opt_if. rewrite parts_of_maps.
  replace (map (normed_slice periodic i) us) with (map (fun p => mkpart (rem_opt (if periodic then Some bx else None) ((p_x p - i_xmin i) / i_max i)) (rem_opt (if periodic then Some by_ else None) ((p_y p - i_ymin i) / i_max i)) (rem_opt (if periodic then Some bz else None) (p_z p / i_max i)) (p_m p) (p_h p / i_max i)) us) by (apply map_ext; intros p; unfold normed_slice; now rewrite BX, !rem_opt_if).
  destruct (backend _ _ _ bx by_ bz _) as [img|e]; cbn [bind]; [|reflexivity].
  destruct (restored_num j 3 m' nm _ [pixels_slice n (i_xrange i) (i_max i); pixels_slice n (i_yrange i) (i_max i)] img (field_frame (d_m d)) MG NM (eq_sym MF)) as (fp & E8 & F1 & F2 & F3 & F4). rewrite E8. cbn [bind matches].
  exists fp, c2. split; [reflexivity|]. cbn [pic_shape pic_image]. split; [exact F1|]. split; [exact F2|]. split; [|split; [exact F4|exact (columns_stored _ _ C2)]].
  rewrite F3. replace (INR 3) with 3 by (cbn; ring). exact MP.
Qed.

Theorem voxels_num backend j dn n periodic d region rotation mask : good_data s b j dn d -> good_region s region -> good_rotation s rotation ->
  matches s b j 3 (d_m d)
    (voxel_grid backend s b (field_frame (d_m d)) n periodic (triple (numbers b (d_box d))) (region_numbers b region) (rotation_numbers b rotation) mask (particles b d))
    (f_voxels backend n periodic d region rotation mask).
Proof.
  intros D G GR. destruct (particles_columns j dn d D) as (PC & PM & PH). unfold f_voxels, voxel_grid.
  rewrite (num_acm _ _ _ (columns_x _ _ PC)).
  pose proof (region_info_num true periodic (d_box d) region (gd_box _ _ _ _ _ D) (gd_nbox _ _ _ _ _ D) G) as RI. destruct (region_info _ _ _ _) as [i|e]; [|cbn [bind matches]; now rewrite RI].
  destruct RI as (fi & E & K & KB). rewrite E. cbn [bind]. clear E.
  pose proof (placed_num periodic (d_box d) rotation (d_coords d) _ PC (gd_box _ _ _ _ _ D) (gd_nbox _ _ _ _ _ D) GR) as PL. destruct (placed _ _ _ _) as [[qs st]|e]; [|cbn [bind matches]; now rewrite PL].
  destruct PL as (c1 & c2 & E & C1 & C2 & QM & QH). rewrite E. cbn [bind]. clear E. destruct c1 as [[x y] z]. destruct C1 as (X & Y & W). cbn [col0 col1 col2] in X, Y, W.
  rewrite <- QM in PM. rewrite <- QH in PH.
  pose proof (picked_num 1 x p_x mask qs X) as X'. pose proof (picked_num 1 y p_y mask qs Y) as Y'. pose proof (picked_num 1 z p_z mask qs W) as W'. pose proof (worth_picked 1 _ p_h mask qs PH) as H'. pose proof (op_picked_num j 3 (d_m d) mask qs PM (gd_m _ _ _ _ _ D)) as M'.
  destruct (pick mask qs) as [us|e]; [|cbn [bind matches]; rewrite X'; reflexivity].
  destruct X' as (x' & EX & X'). destruct Y' as (y' & EY & Y'). destruct W' as (z' & EZ & W'). destruct H' as (h' & EH & H'). destruct M' as (m' & EM & MV & MG & MF & MP).
  destruct (i_box i) as [[bx by_] bz] eqn:BX. destruct (known_box_cases periodic i fi bx by_ bz KB BX) as (L0 & L1 & L2 & V0 & V1 & V2). cbn [bind].
  rewrite EX. cbn [bind]. destruct (normed_low _ _ _ _ _ _ _ _ _ X' (k_xmin _ _ K) (k_xrange _ _ K) L0) as (nx & E1 & NX). rewrite E1. cbn [bind].
  rewrite EY. cbn [bind]. destruct (normed_low _ _ _ _ _ _ _ _ _ Y' (k_ymin _ _ K) (k_yrange _ _ K) L1) as (ny & E2 & NY). rewrite E2. cbn [bind].
  rewrite EZ. cbn [bind]. destruct (normed_low _ _ _ _ _ _ _ _ _ W' (k_zmin _ _ K) (k_zrange _ _ K) L2) as (nz & E2' & NZ). rewrite E2'. cbn [bind].
  rewrite EM. cbn [bind]. rewrite EH. cbn [bind]. destruct (div_h _ _ _ _ _ H' (k_xrange _ _ K)) as (nh & E3 & NH). rewrite E3. cbn [bind].
  destruct (num_area _ _ _ _ (k_xrange _ _ K) (k_yrange _ _ K)) as (na & E4 & NA). rewrite E4. cbn [bind]. destruct (num_volume _ _ _ _ NA (k_zrange _ _ K)) as (nm & E4' & NM). rewrite E4'. cbn [bind].
  destruct (into_0 (op_frame m') _ _ NX) as (ix & E5 & IX). destruct (into_0 (op_frame m') _ _ NY) as (iy & E6 & IY). destruct (into_0 (op_frame m') _ _ NH) as (ih & E7 & IH). rewrite E5. cbn [bind]. rewrite E6. cbn [bind]. rewrite E7. cbn [bind].
  rewrite V0, V1, V2, IX, IY, IH, MV.
  replace (avals nz) with (map (fun p => rem_opt (if periodic then Some bz else None) ((p_z p - i_zmin i) / i_zrange i)) us) by (rewrite (proj1 (avals_0 nz (proj1 NZ))); symmetry; now apply worth_0).
  rewrite parts_of_maps.
  replace (map (normed3 periodic i) us) with (map (fun p => mkpart (rem_opt (if periodic then Some bx else None) ((p_x p - i_xmin i) / i_xrange i)) (rem_opt (if periodic then Some by_ else None) ((p_y p - i_ymin i) / i_yrange i)) (rem_opt (if periodic then Some bz else None) ((p_z p - i_zmin i) / i_zrange i)) (p_m p) (p_h p / i_xrange i)) us) by (apply map_ext; intros p; unfold normed3; now rewrite BX, !rem_opt_if).
  destruct (backend n bx by_ bz _) as [img|e]; cbn [bind]; [|reflexivity].
  destruct (restored_num j 3 m' nm _ (cube n) img (field_frame (d_m d)) MG NM (eq_sym MF)) as (fp & E8 & F1 & F2 & F3 & F4). rewrite E8. cbn [bind matches].
  exists fp, c2. split; [reflexivity|]. cbn [pic_shape pic_image]. split; [exact F1|]. split; [exact F2|]. split; [|split; [exact F4|exact (columns_stored _ _ C2)]].
  rewrite F3. replace (INR 3) with 3 by (cbn; ring). exact MP.
Qed.
End Frame.

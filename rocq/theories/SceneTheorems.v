(** Theorems about pictures of subset files (C127). *)
From Coq Require Import String List ZArith QArith Qreals Reals Bool Lia Lra Permutation Sorted.
From Verif Require Import Base BaseLemmas RangesModel RangesSpec RangesProofs SortModel SortProofs
  MaskModel MaskSpec MaskGeomProofs MaskProofs MaskHistProofs MaskCountProofs MaskTheorems ReaderModel ReaderSpec ReaderProofs ReaderTheorems
  SubsetModel SubsetSpec SubsetProofs SubsetTheorems.
From Verif Require Import VisModel VisSpec RotModel HsmlModel FrontModel FrontSpec
  SeenSpec SeenFrontSpec GetModel GetSpec PipeModel PipeSpec PipeTheorems SceneModel SceneSpec.
Import ListNotations.
Open Scope R_scope.

(** * The groups *)

Lemma written_fields : forall (V : Type) argsort (f f' : sfile V) st allow g gr gr',
  is_argsort argsort -> wf_file f -> file_tiled f -> mask_of f st -> type_ok (f_type f) ->
  write_subset argsort f st allow = Ok f' ->
  nth_error (f_groups f) g = Some gr -> nth_error (f_groups f') g = Some gr' ->
  f_box f' = f_box f /\ length (g_fields gr') = length (g_fields gr).
Proof.
  intros V argsort f f' st allow g gr gr' Harg Hw Ht Hm Hty E Hg Hg'.
  assert (Hal : ms_constrained st <> None \/ allow = true).
  { unfold write_subset in E. destruct (ms_constrained st); [left; discriminate|]. destruct allow; [now right|discriminate]. }
  destruct (write_subset_ok argsort f st allow Harg Hw Ht Hm Hty Hal) as (f2 & E2 & _ & _ & _ & _ & B & _).
  destruct (C22_subset_holds_masked_rows V argsort f st allow Harg Hw Ht Hm Hty Hal) as (f3 & E3 & _ & _ & _ & S).
  rewrite E in E2, E3. injection E2 as <-. injection E3 as <-. split; [exact B|].
  destruct (S g gr Hg) as (gr2 & rows & Hg2 & _ & _ & _ & F). rewrite Hg' in Hg2. injection Hg2 as <-.
  symmetry. clear - F. induction F; cbn [length]; congruence.
Qed.

(** The group of the subset file, loaded without a mask, is that of the original file loaded with the mask. *)
Theorem C127_group : forall argsort (f f' : sfile R) st allow g gr gr' names k,
  is_argsort argsort -> wf_file f -> file_tiled f -> mask_of f st -> type_ok (f_type f) ->
  write_subset argsort f st allow = Ok f' ->
  nth_error (f_groups f) g = Some gr -> nth_error (f_groups f') g = Some gr' ->
  load_group argsort None k (attributes names gr') = load_group argsort (Some st) (key_of f g) (attributes names gr).
Proof.
  intros argsort f f' st allow g gr gr' names k Harg Hw Ht Hm Hty E Hg Hg'.
  pose proof (proj2 (written_fields R argsort f f' st allow g gr gr' Harg Hw Ht Hm Hty E Hg Hg')) as L.
  assert (A : forall j fd fd', nth_error (g_fields gr) j = Some fd -> nth_error (g_fields gr') j = Some fd' ->
    read_field argsort None None fd' = read_field argsort (group_mask (Some st) (key_of f g)) None fd).
  { intros j fd fd' Hj Hj'.
    destruct (C22_load_equals_masked_load R argsort f f' st allow g j gr gr' fd fd' None Harg Hw Ht Hm Hty E Hg Hg' Hj Hj' I) as (out & -> & ->).
    reflexivity. }
  unfold load_group, attributes. f_equal. rewrite !map_map. cbn [st_name].
  clear - A L. change (group_mask None k) with (@None (list range * Z)). generalize dependent (g_fields gr'). generalize (g_fields gr). revert names.
  induction names as [|(nm & c) names IH]; intros fs fs' L A; [reflexivity|].
  destruct fs as [|x fs], fs' as [|x' fs']; try discriminate; [reflexivity|]. cbn [combine map fst snd]. f_equal.
  - f_equal. unfold attribute_of. cbn [st_field st_comoving]. rewrite (A O x x' eq_refl eq_refl). reflexivity.
  - apply IH; [injection L as ->; reflexivity|]. intros j fd fd' H H'. apply (A (S j)); assumption.
Qed.

(** So any picture of the subset file, with any backend and options, is that of the original file loaded with the mask. *)
Theorem C127_pictures : forall argsort (f f' : sfile R) st allow g gr gr' names k s junk a z l,
  is_argsort argsort -> wf_file f -> file_tiled f -> mask_of f st -> type_ok (f_type f) ->
  write_subset argsort f st allow = Ok f' ->
  nth_error (f_groups f) g = Some gr -> nth_error (f_groups f') g = Some gr' ->
  let sub := load_group argsort None k (attributes names gr') in
  let masked := load_group argsort (Some st) (key_of f g) (attributes names gr) in
  project_pixel_grid s junk a (real_box (f_box f')) sub l = project_pixel_grid s junk a (real_box (f_box f)) masked l
  /\ slice_pixel_grid s junk a z (real_box (f_box f')) sub l = slice_pixel_grid s junk a z (real_box (f_box f)) masked l
  /\ render_voxel_grid s junk a (real_box (f_box f')) sub l = render_voxel_grid s junk a (real_box (f_box f)) masked l.
Proof.
  intros argsort f f' st allow g gr gr' names k s junk a z l Harg Hw Ht Hm Hty E Hg Hg' sub masked.
  assert (Es : sub = masked) by (apply (C127_group argsort f f' st allow g gr gr'); assumption).
  rewrite Es, (proj1 (written_fields R argsort f f' st allow g gr gr' Harg Hw Ht Hm Hty E Hg Hg')). auto.
Qed.

Lemma tiled_disjoint : forall (f : sfile R), file_tiled f -> Forall cells_disjoint (mm_keys (mask_meta_of f)).
Proof.
  intros f. unfold file_tiled. apply Forall_impl. intros mk H. unfold cells_disjoint. revert H. generalize 0%Z. generalize (key_cells mk).
  induction l as [|c l IH]; intros start H; [constructor|]. cbn in H. destruct H as (H1 & H2 & H3). constructor; [|apply (IH _ H3)].
  apply Forall_forall. intros d Hd i (Hc & Hi). apply In_nth_error in Hd. destruct Hd as (j & Hj).
  pose proof (tile_nth _ _ _ _ _ H3 Hj). unfold stored_in in *. lia.
Qed.

(** * Subset files of a region *)

(** A subset of a region that is written gives a file with all groups. *)
Lemma spatial_written : forall argsort (f : sfile R) region union st gr g,
  is_argsort argsort -> wf_file f -> file_tiled f -> type_ok (f_type f) ->
  constrain_spatial (mask_meta_of f) region union (new_mask (mask_meta_of f)) = (st, None) ->
  well_formed_region region -> region_in_window (f_box f) region ->
  nth_error (f_groups f) g = Some gr ->
  mask_of f st /\ exists f' gr', write_subset argsort f st false = Ok f' /\ nth_error (f_groups f') g = Some gr'.
Proof.
  intros argsort f region union st gr g Harg Hw Ht Hty E Wr Win Hg.
  pose proof (unpack_wf _ (proj1 Hw)) as Wm. fold (mask_meta_of f) in Wm.
  destruct (spatial_fresh (mask_meta_of f) region union (proj1 Wm) (conj Wr Win)) as (restrict & _ & E'). rewrite E in E'.
  assert (Hm : mask_of f st).
  { exists [OpSpatial region union]. split; [repeat constructor|]. cbn [mask_run mask_step fst snd]. rewrite E. reflexivity. }
  assert (C : ms_constrained st <> None) by (injection E' as ->; discriminate).
  split; [exact Hm|].
  destruct (C22_subset_holds_masked_rows R argsort f st false Harg Hw Ht Hm Hty (or_introl C)) as (f' & Ef & _ & _ & _ & S).
  destruct (S g gr Hg) as (gr' & _ & Hg' & _). exists f', gr'. auto.
Qed.

(** A subset file of a region that holds that of the picture, widened by more than the largest kernel, gives the
    projection of the whole file... *)
Theorem C127_project :
  forall argsort (f : sfile R) g gr names mk s junk a l r w bx by_ union frame coords ch ps,
  let mm := mask_meta_of f in let fs := attributes names gr in
  is_argsort argsort -> wf_file f -> file_tiled f -> type_ok (f_type f) ->
  nth_error (f_groups f) g = Some gr -> nth_error (mm_keys mm) (key_of f g) = Some mk -> zlen ps = key_total mk ->
  file_of fs (l_project l) frame coords ps -> stores fs "smoothing_lengths" ch (map (fun p => [p_h p]) ps) ->
  (forall i p, nth_error ps i = Some p -> in_its_cell (f_box f) mk (Z.of_nat i) p) ->
  scheduled s -> In (l_backend l) ["fast"; "renormalised"; "subsampled"; "subsampled_extreme"; "reference"; "gpu"]%string ->
  l_region l = Some r -> l_mask l = None -> (1 <= l_resolution l)%Z -> 0 < x_extent r -> 0 < y_extent r ->
  l_periodic l = true -> l_rotation l = None ->
  match r_z r with Some (z0, z1) => z1 - z0 <= Q2R (f_box f AZ) | None => True end ->
  (forall p, In p ps -> 0 <= p_h p /\ gamma2 * p_h p <= w) ->
  well_formed_region [bx; by_; None] -> region_in_window (f_box f) [bx; by_; None] ->
  widened (r_xmin r) (r_xmin r + extent r) w bx -> widened (r_ymin r) (r_ymin r + extent r) w by_ ->
  exists st f' gr', constrain_spatial mm [bx; by_; None] union (new_mask mm) = (st, None)
  /\ write_subset argsort f st false = Ok f' /\ nth_error (f_groups f') g = Some gr'
  /\ same_picture (drawn (project_pixel_grid s junk a (real_box (f_box f)) (load_group argsort None (key_of f g) fs) l))
                  (drawn (project_pixel_grid s junk a (real_box (f_box f')) (load_group argsort None (key_of f' g) (attributes names gr')) l)).
Proof.
  intros argsort f g gr names mk s junk a l r w bx by_ union frame coords ch ps mm fs Harg Hw Ht Hty Hg Hk Hps Hf Hh Cells Hs Hb El Em Hn Hx Hy Ep Er Hz Hpos Wr Win Wx Wy.
  assert (Wm : wf_meta mm) by (apply unpack_wf, Hw).
  destruct (C104_spatial_project argsort mm (key_of f g) mk s junk a fs l r w bx by_ union frame coords ch ps) as (st & E & P); auto.
  { apply tiled_disjoint. exact Ht. }
  { apply (proj1 (Forall_forall _ _) Ht). eapply nth_error_In, Hk. }
  destruct (spatial_written argsort f [bx; by_; None] union st gr g Harg Hw Ht Hty E Wr Win Hg) as (Hm & f' & gr' & Ef & Hg').
  exists st, f', gr'. split; [exact E|]. split; [exact Ef|]. split; [exact Hg'|].
  destruct (C127_pictures argsort f f' st false g gr gr' names (key_of f' g) s junk a None l Harg Hw Ht Hm Hty Ef Hg Hg') as (-> & _). exact P.
Qed.

(** ... the slice... *)
Theorem C127_slice :
  forall argsort (f : sfile R) g gr names mk s junk a z_slice l r w bx by_ bz union frame coords ch ps,
  let mm := mask_meta_of f in let fs := attributes names gr in
  is_argsort argsort -> wf_file f -> file_tiled f -> type_ok (f_type f) ->
  nth_error (f_groups f) g = Some gr -> nth_error (mm_keys mm) (key_of f g) = Some mk -> zlen ps = key_total mk ->
  file_of fs (l_project l) frame coords ps -> stores fs "smoothing_lengths" ch (map (fun p => [p_h p]) ps) ->
  (forall i p, nth_error ps i = Some p -> in_its_cell (f_box f) mk (Z.of_nat i) p) ->
  scheduled s -> l_backend l = "sph"%string ->
  l_region l = Some r -> l_mask l = None -> (1 <= l_resolution l)%Z -> 0 < x_extent r -> 0 < y_extent r ->
  l_periodic l = true -> l_rotation l = None ->
  (forall p, In p ps -> 0 < p_h p /\ gamma3 * p_h p <= w) ->
  well_formed_region [bx; by_; bz] -> region_in_window (f_box f) [bx; by_; bz] ->
  widened (r_xmin r) (r_xmin r + extent r) w bx -> widened (r_ymin r) (r_ymin r + extent r) w by_ ->
  (let t := match z_slice with Some z => z | None => 0 end in widened t t w bz) ->
  exists st f' gr', constrain_spatial mm [bx; by_; bz] union (new_mask mm) = (st, None)
  /\ write_subset argsort f st false = Ok f' /\ nth_error (f_groups f') g = Some gr'
  /\ same_picture (drawn (slice_pixel_grid s junk a z_slice (real_box (f_box f)) (load_group argsort None (key_of f g) fs) l))
                  (drawn (slice_pixel_grid s junk a z_slice (real_box (f_box f')) (load_group argsort None (key_of f' g) (attributes names gr')) l)).
Proof.
  intros argsort f g gr names mk s junk a z_slice l r w bx by_ bz union frame coords ch ps mm fs Harg Hw Ht Hty Hg Hk Hps Hf Hh Cells Hs Hb El Em Hn Hx Hy Ep Er Hpos Wr Win Wx Wy Wz.
  assert (Wm : wf_meta mm) by (apply unpack_wf, Hw).
  destruct (C104_spatial_slice argsort mm (key_of f g) mk s junk a z_slice fs l r w bx by_ bz union frame coords ch ps) as (st & E & P); auto.
  { apply tiled_disjoint. exact Ht. }
  { apply (proj1 (Forall_forall _ _) Ht). eapply nth_error_In, Hk. }
  destruct (spatial_written argsort f [bx; by_; bz] union st gr g Harg Hw Ht Hty E Wr Win Hg) as (Hm & f' & gr' & Ef & Hg').
  exists st, f', gr'. split; [exact E|]. split; [exact Ef|]. split; [exact Hg'|].
  destruct (C127_pictures argsort f f' st false g gr gr' names (key_of f' g) s junk a z_slice l Harg Hw Ht Hm Hty Ef Hg Hg') as (_ & -> & _). exact P.
Qed.

(** ... and the volume. *)
Theorem C127_render :
  forall argsort (f : sfile R) g gr names mk s junk a l x0 y0 z0 M w bx by_ bz union frame coords ch ps,
  let mm := mask_meta_of f in let fs := attributes names gr in
  is_argsort argsort -> wf_file f -> file_tiled f -> type_ok (f_type f) ->
  nth_error (f_groups f) g = Some gr -> nth_error (mm_keys mm) (key_of f g) = Some mk -> zlen ps = key_total mk ->
  file_of fs (l_project l) frame coords ps -> stores fs "smoothing_lengths" ch (map (fun p => [p_h p]) ps) ->
  (forall i p, nth_error ps i = Some p -> in_its_cell (f_box f) mk (Z.of_nat i) p) ->
  scheduled s ->
  l_region l = Some (mkregion x0 (x0 + M) y0 (y0 + M) (Some (z0, z0 + M))) -> l_mask l = None -> (1 <= l_resolution l)%Z -> 0 < M ->
  l_periodic l = true -> l_rotation l = None ->
  (forall p, In p ps -> 0 <= p_h p /\ gamma3 * p_h p <= w) ->
  well_formed_region [bx; by_; bz] -> region_in_window (f_box f) [bx; by_; bz] ->
  widened x0 (x0 + M) w bx -> widened y0 (y0 + M) w by_ -> widened z0 (z0 + M) w bz ->
  exists st f' gr', constrain_spatial mm [bx; by_; bz] union (new_mask mm) = (st, None)
  /\ write_subset argsort f st false = Ok f' /\ nth_error (f_groups f') g = Some gr'
  /\ same_picture (drawn (render_voxel_grid s junk a (real_box (f_box f)) (load_group argsort None (key_of f g) fs) l))
                  (drawn (render_voxel_grid s junk a (real_box (f_box f')) (load_group argsort None (key_of f' g) (attributes names gr')) l)).
Proof.
  intros argsort f g gr names mk s junk a l x0 y0 z0 M w bx by_ bz union frame coords ch ps mm fs Harg Hw Ht Hty Hg Hk Hps Hf Hh Cells Hs El Em Hn HM Ep Er Hpos Wr Win Wx Wy Wz.
  assert (Wm : wf_meta mm) by (apply unpack_wf, Hw).
  destruct (C104_spatial_render argsort mm (key_of f g) mk s junk a fs l x0 y0 z0 M w bx by_ bz union frame coords ch ps) as (st & E & P); auto.
  { apply tiled_disjoint. exact Ht. }
  { apply (proj1 (Forall_forall _ _) Ht). eapply nth_error_In, Hk. }
  destruct (spatial_written argsort f [bx; by_; bz] union st gr g Harg Hw Ht Hty E Wr Win Hg) as (Hm & f' & gr' & Ef & Hg').
  exists st, f', gr'. split; [exact E|]. split; [exact Ef|]. split; [exact Hg'|].
  destruct (C127_pictures argsort f f' st false g gr gr' names (key_of f' g) s junk a None l Harg Hw Ht Hm Hty Ef Hg Hg') as (_ & _ & ->). exact P.
Qed.

(** * Masks of subset files *)

Lemma picked_map : forall (A : Type) (h : A -> list R) d idx xs out, picks idx (map h xs) out ->
  out = map h (map (fun i => nth (Z.to_nat i) xs d) idx).
Proof.
  intros A h d idx xs out H. induction H as [|i o idx out (_ & E) H IH]; [reflexivity|]. cbn [map]. f_equal; [|exact IH].
  rewrite nth_error_map in E. destruct (nth_error xs (Z.to_nat i)) eqn:E'; [|discriminate]. injection E as <-.
  f_equal. symmetry. apply nth_error_nth. exact E'.
Qed.

Lemma forall2_nth : forall (A B : Type) (P : A -> B -> Prop) xs ys m x y,
  Forall2 P xs ys -> nth_error xs m = Some x -> nth_error ys m = Some y -> P x y.
Proof.
  intros A B P xs ys m x y H. revert m. induction H; intros [|m] Ex Ey; try discriminate; cbn [nth_error] in *; [congruence|eauto].
Qed.

Lemma stores_subset : forall names fs fs' idx n name c rows,
  Forall2 (field_subset idx) fs fs' -> Forall (fun fd => field_of n fd /\ fd_layout fd <> Remote) fs' ->
  stores (map (fun x => mkstored (fst (fst x)) (snd (fst x)) (snd x)) (combine names fs)) name c rows ->
  exists rows', picks idx rows rows' /\ zlen rows' = n /\
    stores (map (fun x => mkstored (fst (fst x)) (snd (fst x)) (snd x)) (combine names fs')) name c rows'.
Proof.
  induction names as [|(nm & c0) names IH]; intros fs fs' idx n name c rows F W (b & fd & af & E & N & L & O & Er).
  { destruct b; discriminate. }
  destruct F as [|x x' fs fs' Hx F]; [destruct b; discriminate|]. inversion W as [|? ? (W1 & W2) W']; subst.
  cbn [combine map fst snd] in E |- *. destruct b as [|b0 b].
  - injection E as -> -> -> <-. exists (fd_rows x'). split; [apply Hx|]. pose proof W1 as (Z1 & _). split; [exact Z1|].
    exists [], x'. eexists. split; [reflexivity|]. split; [intros []|]. split; [exact W2|]. split; [rewrite Z1; exact W1|reflexivity].
  - injection E as <- E. cbn [map st_name In] in N.
    destruct (IH fs fs' idx n name c (fd_rows fd) F W') as (rows' & P & Z1 & (b' & fd' & af' & E' & N' & L' & O' & Er')).
    { exists b, fd, af. split; [exact E|]. split; [tauto|]. auto. }
    exists rows'. split; [exact P|]. split; [exact Z1|]. exists (mkstored nm c0 x' :: b'), fd', af'. rewrite E'. split; [reflexivity|].
    split; [cbn [map st_name In]; tauto|]. auto.
Qed.

Definition no_part : part := mkpart 0 0 0 0 0.
(** The particles of the subset file. *)
Definition taken (idx : list Z) (ps : list part) : list part := map (fun i => nth (Z.to_nat i) ps no_part) idx.

Lemma file_subset : forall names gr gr' idx n project frame coords ps,
  Forall2 (field_subset idx) (g_fields gr) (g_fields gr') ->
  Forall (fun fd => field_of n fd /\ fd_layout fd <> Remote) (g_fields gr') ->
  file_of (attributes names gr) project frame coords ps ->
  file_of (attributes names gr') project frame coords (taken idx ps) /\ zlen (taken idx ps) = n
  /\ Forall2 (fun i p => nth_error ps (Z.to_nat i) = Some p) idx (taken idx ps).
Proof.
  intros names gr gr' idx n project frame coords ps F W (Hm & Hc).
  assert (Each : forall (h : part -> list R) name c, stores (attributes names gr) name c (map h ps) ->
    stores (attributes names gr') name c (map h (taken idx ps))).
  { intros h name c S. destruct (stores_subset _ _ _ _ _ _ _ _ F W S) as (rows' & P & _ & S').
    rewrite (picked_map _ h no_part _ _ _ P) in S'. exact S'. }
  destruct (stores_subset _ _ _ _ _ _ _ _ F W Hc) as (rows & P & Zr & _).
  assert (T : Forall2 (fun i p => nth_error ps (Z.to_nat i) = Some p) idx (taken idx ps)).
  { clear - P. unfold taken. induction P as [|i o idx out (_ & E) P IH]; [constructor|]. cbn [map]. constructor; [|exact IH].
    rewrite nth_error_map in E. destruct (nth_error ps (Z.to_nat i)) eqn:E'; [|discriminate]. f_equal. symmetry. apply nth_error_nth. exact E'. }
  split; [|split; [|exact T]].
  - split; [|apply Each, Hc]. destruct project as [name|].
    + destruct Hm as (D & S). split; [exact D|apply Each, S].
    + destruct Hm as (ids & S & I). destruct (stores_subset _ _ _ _ _ _ _ _ F W S) as (ids' & Pi & _ & S').
      exists ids'. split; [exact S'|]. clear - I Pi T. unfold taken in *. revert T. induction Pi as [|i o idx out (_ & E) Pi IH]; intro T; [constructor|].
      cbn [map] in *. inversion T as [|? ? ? ? T1 T2]; subst. constructor; [|apply IH, T2].
      exact (forall2_nth _ _ _ _ _ _ _ _ I T1 E).
  - rewrite <- Zr. rewrite (picked_map _ _ no_part _ _ _ P). unfold zlen. rewrite map_length. reflexivity.
Qed.

Lemma subset_keeps : forall argsort (f f' : sfile R) st allow g gr gr' mk names project frame coords region union (needed : part -> Prop) ps n,
  is_argsort argsort -> wf_file f -> file_tiled f -> mask_of f st -> type_ok (f_type f) ->
  write_subset argsort f st allow = Ok f' -> wf_file f' -> file_tiled f' ->
  nth_error (f_groups f) g = Some gr -> nth_error (f_groups f') g = Some gr' -> present gr' = true ->
  Forall (fun fd => field_of n fd /\ fd_layout fd <> Remote) (g_fields gr') ->
  nth_error (mm_keys (mask_meta_of f)) (key_of f g) = Some mk ->
  file_of (attributes names gr) project frame coords ps ->
  (forall mk c, In mk (mm_keys (mask_meta_of f)) -> In c (key_cells mk) -> extent_ok (f_box f) c) ->
  (forall i p, nth_error ps i = Some p -> in_its_cell (f_box f) mk (Z.of_nat i) p) ->
  well_formed_region region -> region_in_window (f_box f) region ->
  (forall p pos, In p ps -> p_x p = Q2R (pos AX) -> p_y p = Q2R (pos AY) -> p_z p = Q2R (pos AZ) -> needed p ->
     inside_region (f_box f) region pos) ->
  exists st2 idx, constrain_spatial (mask_meta_of f') region union (new_mask (mask_meta_of f')) = (st2, None)
    /\ mask_of f' st2 /\ Forall2 (field_subset idx) (g_fields gr) (g_fields gr') /\ keeps st2 (key_of f' g) needed (taken idx ps).
Proof.
  intros argsort f f' st allow g gr gr' mk names project frame coords region union needed ps n
    Harg Hw Ht Hm Hty E Hw' Ht' Hg Hg' Hp' Hfs Hk Hf Hext Cells Wr Win In_.
  destruct (C23_mask_of_subset R argsort f f' st allow region union Harg Hw Ht Hm Hty E (conj Wr Win) Hext) as (st2 & E2 & S).
  destruct (S g gr gr' Hg Hg' Hp') as (mk2 & idx & Hk2 & _ & F & _ & Sel). rewrite Hk in Hk2. injection Hk2 as <-.
  exists st2, idx. split; [exact E2|].
  assert (Run : fst (mask_run (mask_meta_of f') [OpSpatial region union] (new_mask (mask_meta_of f'))) = st2).
  { cbn [mask_run mask_step fst snd]. rewrite E2. reflexivity. }
  split; [exists [OpSpatial region union]; split; [repeat constructor|exact Run]|]. split; [exact F|].
  pose proof (unpack_wf _ (proj1 Hw')) as Wm.
  split.
  - rewrite <- Run. apply C19_no_duplicates; auto; [apply tiled_disjoint, Ht'|constructor; [exact I|constructor]].
  - intros j p Ej Np. destruct (file_subset names gr gr' idx n project frame coords ps F Hfs Hf) as (_ & _ & T).
    assert (exists row, nth_error idx j = Some row) as (row & Er).
    { destruct (nth_error idx j) eqn:X; [eauto|]. apply nth_error_None in X. assert (j < length (taken idx ps))%nat by (apply nth_error_Some; congruence).
      unfold taken in H. rewrite map_length in H. lia. }
    apply (Sel j row Er). pose proof (forall2_nth _ _ _ _ _ _ _ _ T Er Ej) as Ep.
    assert (Pos : (0 <= row)%Z).
    { destruct Hf as (_ & Hc). destruct (stores_subset _ _ _ _ _ _ _ _ F Hfs Hc) as (rows' & P & _).
      assert (exists o, nth_error rows' j = Some o) as (o & Eo).
      { destruct (nth_error rows' j) eqn:X; [eauto|]. apply nth_error_None in X. assert (Len : length idx = length rows') by (clear - P; induction P; cbn [length]; congruence). rewrite <- Len in X.
        assert (j < length idx)%nat by (apply nth_error_Some; congruence). lia. }
      exact (proj1 (forall2_nth _ _ _ _ _ _ _ _ P Er Eo)). }
    destruct (Cells _ p Ep) as (c & pos & Ic & Si & Ext & Inc & Ex & Ey & Ez). rewrite Z2Nat.id in Si by exact Pos.
    exists c. split; [exact Ic|]. split; [exact Si|]. apply (inside_region_touches _ _ _ pos); auto.
    apply (In_ p pos); auto. eapply nth_error_In, Ep.
Qed.

Lemma subset_setup : forall argsort (f f' : sfile R) st g gr gr' names project frame coords ch idx ps,
  subset_of argsort f f' st g gr gr' -> file_of (attributes names gr) project frame coords ps ->
  stores (attributes names gr) "smoothing_lengths" ch (map (fun p => [p_h p]) ps) ->
  wf_file f' /\ file_tiled f' /\ f_box f' = f_box f
  /\ Forall (fun fd => field_of (g_count gr') fd /\ fd_layout fd <> Remote) (g_fields gr')
  /\ exists mk', nth_error (mm_keys (mask_meta_of f')) (key_of f' g) = Some mk'
     /\ cells_tile 0 (key_cells mk') (key_total mk')
     /\ (Forall2 (field_subset idx) (g_fields gr) (g_fields gr') ->
         zlen (taken idx ps) = key_total mk' /\ file_of (attributes names gr') project frame coords (taken idx ps)
         /\ stores (attributes names gr') "smoothing_lengths" ch (map (fun p => [p_h p]) (taken idx ps))
         /\ forall p, In p (taken idx ps) -> In p ps).
Proof.
  intros argsort f f' st g gr gr' names project frame coords ch idx ps (Harg & Hw & Ht & Hm & Hty & (allow & E) & Sm & Hg & Hg' & Hp') Hf Hh.
  assert (Some_ : exists gr, In gr (f_groups f) /\ present gr = true).
  { exists gr. split; [eapply nth_error_In, Hg|]. destruct (present gr) eqn:X; [reflexivity|].
    destruct Hw as (_ & _ & _ & W). rewrite Forall_forall in W. destruct (W gr (nth_error_In _ _ Hg)) as (W1 & _).
    destruct (W1 X) as (_ & W2). destruct Hf as (_ & (b & fd & af & Ef & _)). exfalso. unfold attributes in Ef. rewrite W2 in Ef.
    destruct names; destruct b; discriminate. }
  destruct (C22_subset_again R argsort f f' st allow Harg Hw Ht Hm Hty E Sm Some_) as (Hw' & Ht').
  split; [exact Hw'|]. split; [exact Ht'|].
  split; [apply (written_fields R argsort f f' st allow g gr gr'); assumption|].
  assert (W : Forall (fun fd => field_of (g_count gr') fd /\ fd_layout fd <> Remote) (g_fields gr')).
  { destruct Hw' as (_ & _ & _ & W). rewrite Forall_forall in W. destruct (W gr' (nth_error_In _ _ Hg')) as (_ & W2).
    eapply Forall_impl; [|exact W2]. cbn. tauto. }
  split; [exact W|].
  pose proof (group_key f' g gr' Hg' Hp') as Hk. eexists. split; [exact Hk|].
  split; [apply (proj1 (Forall_forall _ _) Ht'); eapply nth_error_In, Hk|].
  intro F. destruct (file_subset names gr gr' idx (g_count gr') project frame coords ps F W Hf) as (F' & L & T).
  cbn [key_total]. split; [exact L|]. split; [exact F'|]. split.
  - destruct (stores_subset _ _ _ _ _ _ _ _ F W Hh) as (rows' & P & _ & S').
    rewrite (picked_map _ (fun p => [p_h p]) no_part _ _ _ P) in S'. exact S'.
  - intros p Ip. apply In_nth_error in Ip. destruct Ip as (j & Ej).
    assert (exists row, nth_error idx j = Some row) as (row & Er).
    { destruct (nth_error idx j) eqn:X; [eauto|]. apply nth_error_None in X. assert (j < length (taken idx ps))%nat by (apply nth_error_Some; congruence).
      unfold taken in H. rewrite map_length in H. lia. }
    eapply nth_error_In. exact (forall2_nth _ _ _ _ _ _ _ _ T Er Ej).
Qed.

Lemma same_picture_trans : forall r s t, same_picture r s -> same_picture s t -> same_picture r t.
Proof.
  intros r s t (sh & f & g & -> & -> & H) (sh' & f' & g' & E & -> & H'). injection E as <- <-.
  exists sh, f, g'. split; [reflexivity|]. split; [reflexivity|]. intros c Hc. rewrite (H c Hc). apply H'. exact Hc.
Qed.

(** A mask of the subset file of a region that holds that of the picture, widened by more than the largest kernel, gives
    the projection of the whole file, if the mask the subset file was written with keeps what is needed. *)
Theorem C127_masked_project :
  forall argsort (f f' : sfile R) st g gr gr' names mk s junk a l r w bx by_ union frame coords ch ps,
  subset_of argsort f f' st g gr gr' ->
  nth_error (mm_keys (mask_meta_of f)) (key_of f g) = Some mk -> zlen ps = key_total mk ->
  file_of (attributes names gr) (l_project l) frame coords ps ->
  stores (attributes names gr) "smoothing_lengths" ch (map (fun p => [p_h p]) ps) ->
  (forall mk c, In mk (mm_keys (mask_meta_of f)) -> In c (key_cells mk) -> extent_ok (f_box f) c) ->
  (forall i p, nth_error ps i = Some p -> in_its_cell (f_box f) mk (Z.of_nat i) p) ->
  scheduled s -> In (l_backend l) ["fast"; "renormalised"; "subsampled"; "subsampled_extreme"; "reference"; "gpu"]%string ->
  l_region l = Some r -> l_mask l = None -> (1 <= l_resolution l)%Z -> 0 < x_extent r -> 0 < y_extent r ->
  l_periodic l = true -> l_rotation l = None ->
  match r_z r with Some (z0, z1) => z1 - z0 <= Q2R (f_box f AZ) | None => True end ->
  (forall p, In p ps -> 0 <= p_h p /\ gamma2 * p_h p <= w) ->
  keeps st (key_of f g) (fun p => looks2 true (real_box (f_box f)) r None (gamma2 * p_h p) p) ps ->
  well_formed_region [bx; by_; None] -> region_in_window (f_box f) [bx; by_; None] ->
  widened (r_xmin r) (r_xmin r + extent r) w bx -> widened (r_ymin r) (r_ymin r + extent r) w by_ ->
  exists st2, constrain_spatial (mask_meta_of f') [bx; by_; None] union (new_mask (mask_meta_of f')) = (st2, None)
  /\ same_picture (drawn (project_pixel_grid s junk a (real_box (f_box f)) (load_group argsort None (key_of f g) (attributes names gr)) l))
                  (drawn (project_pixel_grid s junk a (real_box (f_box f')) (load_group argsort (Some st2) (key_of f' g) (attributes names gr')) l)).
Proof.
  intros argsort f f' st g gr gr' names mk s junk a l r w bx by_ union frame coords ch ps
    Sub Hk Hps Hf Hh Hext Cells Hs Hb El Em Hn Hx Hy Ep Er Hz Hpos K Wr Win Wx Wy.
  pose proof Sub as (Harg & Hw & Ht & Hm & Hty & (allow & E) & Sm & Hg & Hg' & Hp').
  destruct (subset_setup argsort f f' st g gr gr' names (l_project l) frame coords ch [] ps Sub Hf Hh) as (Hw' & Ht' & Box & W & _).
  destruct (subset_keeps argsort f f' st allow g gr gr' mk names (l_project l) frame coords [bx; by_; None] union
    (fun p => looks2 true (real_box (f_box f)) r None (gamma2 * p_h p) p) ps (g_count gr')) as (st2 & idx & E2 & Hm2 & F & K2); auto.
  { intros p pos Ip Ex Ey Ez. unfold looks2, real_box, at_x, at_y, FrontSpec.seen, position. cbn [fst snd]. rewrite Ex, Ey.
    intros (A & B). cbn [inside_region]. repeat split.
    - apply (reaches_inside _ _ _ _ w _ _ (proj2 (Hpos p Ip)) Wx A).
    - apply (reaches_inside _ _ _ _ w _ _ (proj2 (Hpos p Ip)) Wy B). }
  exists st2. split; [exact E2|].
  destruct (subset_setup argsort f f' st g gr gr' names (l_project l) frame coords ch idx ps Sub Hf Hh) as (_ & _ & _ & _ & mk' & Hk' & Tile & R').
  destruct (R' F) as (L & F' & H' & Inc).
  pose proof (unpack_wf _ (proj1 Hw)) as Wm. pose proof (unpack_wf _ (proj1 Hw')) as Wm'.
  assert (P0 : forall ax, 0 < Q2R (f_box f ax)).
  { intro ax. replace 0 with (Q2R 0) by apply RMicromega.Q2R_0. apply Qlt_Rlt, (proj1 Wm ax). }
  destruct (C127_pictures argsort f f' st allow g gr gr' names (key_of f' g) s junk a None l Harg Hw Ht Hm Hty E Hg Hg') as (Same & _).
  rewrite Box in *. unfold real_box in *.
  eapply same_picture_trans.
  - apply (C104_project argsort (mask_meta_of f) st (key_of f g) mk s junk a _ _ _ _ l r frame coords ch ps); auto.
    + apply (proj1 (Forall_forall _ _) Ht). eapply nth_error_In, Hk.
    + destruct (r_z r) as [(? & ?)|]; auto.
    + intros p Ip. apply (Hpos p Ip).
    + rewrite Ep, Er. exact K.
  - rewrite <- Same.
    apply (C104_project argsort (mask_meta_of f') st2 (key_of f' g) mk' s junk a _ _ _ _ l r frame coords ch (taken idx ps)); auto.
    + destruct (r_z r) as [(? & ?)|]; auto.
    + intros p Ip. apply (Hpos p (Inc p Ip)).
    + rewrite Ep, Er. exact K2.
Qed.

(** A mask of the subset file of a region that holds that of the picture, widened by more than the largest kernel, gives
    the slice of the whole file, if the mask the subset file was written with keeps what is needed. *)
Theorem C127_masked_slice :
  forall argsort (f f' : sfile R) st g gr gr' names mk s junk a z_slice l r w bx by_ bz union frame coords ch ps,
  subset_of argsort f f' st g gr gr' ->
  nth_error (mm_keys (mask_meta_of f)) (key_of f g) = Some mk -> zlen ps = key_total mk ->
  file_of (attributes names gr) (l_project l) frame coords ps ->
  stores (attributes names gr) "smoothing_lengths" ch (map (fun p => [p_h p]) ps) ->
  (forall mk c, In mk (mm_keys (mask_meta_of f)) -> In c (key_cells mk) -> extent_ok (f_box f) c) ->
  (forall i p, nth_error ps i = Some p -> in_its_cell (f_box f) mk (Z.of_nat i) p) ->
  scheduled s -> l_backend l = "sph"%string ->
  l_region l = Some r -> l_mask l = None -> (1 <= l_resolution l)%Z -> 0 < x_extent r -> 0 < y_extent r ->
  l_periodic l = true -> l_rotation l = None ->
  (forall p, In p ps -> 0 < p_h p /\ gamma3 * p_h p <= w) ->
  keeps st (key_of f g) (fun p => looks_slice true (real_box (f_box f)) r (match z_slice with Some z => z | None => 0 end) None (gamma3 * p_h p) p) ps ->
  well_formed_region [bx; by_; bz] -> region_in_window (f_box f) [bx; by_; bz] ->
  widened (r_xmin r) (r_xmin r + extent r) w bx -> widened (r_ymin r) (r_ymin r + extent r) w by_ ->
  (let t := match z_slice with Some z => z | None => 0 end in widened t t w bz) ->
  exists st2, constrain_spatial (mask_meta_of f') [bx; by_; bz] union (new_mask (mask_meta_of f')) = (st2, None)
  /\ same_picture (drawn (slice_pixel_grid s junk a z_slice (real_box (f_box f)) (load_group argsort None (key_of f g) (attributes names gr)) l))
                  (drawn (slice_pixel_grid s junk a z_slice (real_box (f_box f')) (load_group argsort (Some st2) (key_of f' g) (attributes names gr')) l)).
Proof.
  intros argsort f f' st g gr gr' names mk s junk a z_slice l r w bx by_ bz union frame coords ch ps
    Sub Hk Hps Hf Hh Hext Cells Hs Hb El Em Hn Hx Hy Ep Er Hpos K Wr Win Wx Wy Wz.
  cbv zeta in Wz. set (t := match z_slice with Some z => z | None => 0 end) in *.
  pose proof Sub as (Harg & Hw & Ht & Hm & Hty & (allow & E) & Sm & Hg & Hg' & Hp').
  destruct (subset_setup argsort f f' st g gr gr' names (l_project l) frame coords ch [] ps Sub Hf Hh) as (Hw' & Ht' & Box & W & _).
  destruct (subset_keeps argsort f f' st allow g gr gr' mk names (l_project l) frame coords [bx; by_; bz] union
    (fun p => looks_slice true (real_box (f_box f)) r (match z_slice with Some z => z | None => 0 end) None (gamma3 * p_h p) p) ps (g_count gr')) as (st2 & idx & E2 & Hm2 & F & K2); auto.
  { intros p pos Ip Ex Ey Ez. unfold looks_slice, looks2, real_box, at_x, at_y, at_z, FrontSpec.seen, position. cbn [fst snd]. rewrite Ex, Ey, Ez.
    intros ((A & B) & C). cbn [inside_region]. repeat split.
    - apply (reaches_inside _ _ _ _ w _ _ (proj2 (Hpos p Ip)) Wx A).
    - apply (reaches_inside _ _ _ _ w _ _ (proj2 (Hpos p Ip)) Wy B).
    - apply (reaches_inside _ _ _ _ w _ _ (proj2 (Hpos p Ip)) Wz C). }
  exists st2. split; [exact E2|].
  destruct (subset_setup argsort f f' st g gr gr' names (l_project l) frame coords ch idx ps Sub Hf Hh) as (_ & _ & _ & _ & mk' & Hk' & Tile & R').
  destruct (R' F) as (L & F' & H' & Inc).
  pose proof (unpack_wf _ (proj1 Hw)) as Wm. pose proof (unpack_wf _ (proj1 Hw')) as Wm'.
  assert (P0 : forall ax, 0 < Q2R (f_box f ax)).
  { intro ax. replace 0 with (Q2R 0) by apply RMicromega.Q2R_0. apply Qlt_Rlt, (proj1 Wm ax). }
  destruct (C127_pictures argsort f f' st allow g gr gr' names (key_of f' g) s junk a z_slice l Harg Hw Ht Hm Hty E Hg Hg') as (_ & Same & _).
  rewrite Box in *. unfold real_box in *.
  eapply same_picture_trans.
  - apply (C104_slice argsort (mask_meta_of f) st (key_of f g) mk s junk a z_slice _ _ _ _ l r frame coords ch ps); auto.
    + apply (proj1 (Forall_forall _ _) Ht). eapply nth_error_In, Hk.
    + intros p Ip. apply (Hpos p Ip).
    + rewrite Ep, Er, Rplus_0_r. exact K.
  - rewrite <- Same.
    apply (C104_slice argsort (mask_meta_of f') st2 (key_of f' g) mk' s junk a z_slice _ _ _ _ l r frame coords ch (taken idx ps)); auto.
    + intros p Ip. apply (Hpos p (Inc p Ip)).
    + rewrite Ep, Er, Rplus_0_r. exact K2.
Qed.

(** A mask of the subset file of a region that holds that of the picture, widened by more than the largest kernel, gives
    the volume of the whole file, if the mask the subset file was written with keeps what is needed. *)
Theorem C127_masked_render :
  forall argsort (f f' : sfile R) st g gr gr' names mk s junk a l x0 y0 z0 M w bx by_ bz union frame coords ch ps,
  subset_of argsort f f' st g gr gr' ->
  nth_error (mm_keys (mask_meta_of f)) (key_of f g) = Some mk -> zlen ps = key_total mk ->
  file_of (attributes names gr) (l_project l) frame coords ps ->
  stores (attributes names gr) "smoothing_lengths" ch (map (fun p => [p_h p]) ps) ->
  (forall mk c, In mk (mm_keys (mask_meta_of f)) -> In c (key_cells mk) -> extent_ok (f_box f) c) ->
  (forall i p, nth_error ps i = Some p -> in_its_cell (f_box f) mk (Z.of_nat i) p) ->
  scheduled s ->
  l_region l = Some (mkregion x0 (x0 + M) y0 (y0 + M) (Some (z0, z0 + M))) -> l_mask l = None -> (1 <= l_resolution l)%Z -> 0 < M ->
  l_periodic l = true -> l_rotation l = None ->
  (forall p, In p ps -> 0 <= p_h p /\ gamma3 * p_h p <= w) ->
  keeps st (key_of f g) (fun p => looks3 true (real_box (f_box f)) (x0, y0, z0) M None (gamma3 * p_h p) p) ps ->
  well_formed_region [bx; by_; bz] -> region_in_window (f_box f) [bx; by_; bz] ->
  widened x0 (x0 + M) w bx -> widened y0 (y0 + M) w by_ -> widened z0 (z0 + M) w bz ->
  exists st2, constrain_spatial (mask_meta_of f') [bx; by_; bz] union (new_mask (mask_meta_of f')) = (st2, None)
  /\ same_picture (drawn (render_voxel_grid s junk a (real_box (f_box f)) (load_group argsort None (key_of f g) (attributes names gr)) l))
                  (drawn (render_voxel_grid s junk a (real_box (f_box f')) (load_group argsort (Some st2) (key_of f' g) (attributes names gr')) l)).
Proof.
  intros argsort f f' st g gr gr' names mk s junk a l x0 y0 z0 M w bx by_ bz union frame coords ch ps
    Sub Hk Hps Hf Hh Hext Cells Hs El Em Hn HM Ep Er Hpos K Wr Win Wx Wy Wz.
  pose proof Sub as (Harg & Hw & Ht & Hm & Hty & (allow & E) & Sm & Hg & Hg' & Hp').
  destruct (subset_setup argsort f f' st g gr gr' names (l_project l) frame coords ch [] ps Sub Hf Hh) as (Hw' & Ht' & Box & W & _).
  destruct (subset_keeps argsort f f' st allow g gr gr' mk names (l_project l) frame coords [bx; by_; bz] union
    (fun p => looks3 true (real_box (f_box f)) (x0, y0, z0) M None (gamma3 * p_h p) p) ps (g_count gr')) as (st2 & idx & E2 & Hm2 & F & K2); auto.
  { intros p pos Ip Ex Ey Ez. unfold looks3, real_box, at_x, at_y, at_z, FrontSpec.seen, position. cbn [fst snd]. rewrite Ex, Ey, Ez.
    intros (A & B & C). cbn [inside_region]. repeat split.
    - apply (reaches_inside _ _ _ _ w _ _ (proj2 (Hpos p Ip)) Wx A).
    - apply (reaches_inside _ _ _ _ w _ _ (proj2 (Hpos p Ip)) Wy B).
    - apply (reaches_inside _ _ _ _ w _ _ (proj2 (Hpos p Ip)) Wz C). }
  exists st2. split; [exact E2|].
  destruct (subset_setup argsort f f' st g gr gr' names (l_project l) frame coords ch idx ps Sub Hf Hh) as (_ & _ & _ & _ & mk' & Hk' & Tile & R').
  destruct (R' F) as (L & F' & H' & Inc).
  pose proof (unpack_wf _ (proj1 Hw)) as Wm. pose proof (unpack_wf _ (proj1 Hw')) as Wm'.
  assert (P0 : forall ax, 0 < Q2R (f_box f ax)).
  { intro ax. replace 0 with (Q2R 0) by apply RMicromega.Q2R_0. apply Qlt_Rlt, (proj1 Wm ax). }
  destruct (C127_pictures argsort f f' st allow g gr gr' names (key_of f' g) s junk a None l Harg Hw Ht Hm Hty E Hg Hg') as (_ & _ & Same).
  rewrite Box in *. unfold real_box in *.
  eapply same_picture_trans.
  - apply (C104_render argsort (mask_meta_of f) st (key_of f g) mk s junk a _ _ _ _ l x0 y0 z0 M frame coords ch ps); auto.
    + apply (proj1 (Forall_forall _ _) Ht). eapply nth_error_In, Hk.
    + intros p Ip. apply (Hpos p Ip).
    + rewrite Ep, Er. exact K.
  - rewrite <- Same.
    apply (C104_render argsort (mask_meta_of f') st2 (key_of f' g) mk' s junk a _ _ _ _ l x0 y0 z0 M frame coords ch (taken idx ps)); auto.
    + intros p Ip. apply (Hpos p (Inc p Ip)).
    + rewrite Ep, Er. exact K2.
Qed.

(** * A case *)

(** Two cells with a particle each; the attributes are those of the example of C104. *)
Definition scene_file : sfile R :=
  mk_sfile (Some "FullVolume"%string) [v3 (1 # 2) 1 1; v3 (3 # 2) 1 1] (v3 1 2 2) 0 (v3 2 2 2) false
    [mk_group 2 (Some true) [0; 1]%Z [1; 1]%Z (Some ([v3 0 0 0; v3 1 0 0], [v3 1 2 2; v3 2 2 2])) (map st_field (pipe_fields pipe_parts))].
Definition scene_names : list (string * option bool) :=
  [("coordinates", Some true); ("masses", Some true); ("smoothing_lengths", Some true)]%string.

Lemma scene_wf : wf_file scene_file.
Proof.
  split.
  { split; [intros []; reflexivity|]. split; [intros []; reflexivity|]. split; [easy|].
    split; [discriminate|]. repeat constructor; cbn; lia. }
  split; [discriminate|]. split; [discriminate|].
  repeat constructor; cbn; try discriminate; try (intros; congruence); intros c H; try discriminate;
    injection H as <-; lia.
Qed.

Lemma scene_tiled : file_tiled scene_file.
Proof. repeat constructor; cbn; lia. Qed.

Example C127_case : forall s argsort, scheduled s -> is_argsort argsort ->
  let r := mkregion (1 / 4) (3 / 4) (1 / 4) (3 / 4) None in
  exists st f' gr', constrain_spatial (mask_meta_of scene_file) [Some [1 # 8; 7 # 8]; Some [1 # 8; 7 # 8]; None]%Q false (new_mask (mask_meta_of scene_file)) = (st, None)
  /\ masked_rows (ms_masks st) 0 = [0%Z]
  /\ write_subset argsort scene_file st false = Ok f' /\ nth_error (f_groups f') 0 = Some gr'
  /\ same_picture (drawn (project_pixel_grid s (fun _ => 0) 1 (real_box (v3 2 2 2)) (load_group argsort None 0 (pipe_fields pipe_parts)) (pipe_look r)))
                  (drawn (project_pixel_grid s (fun _ => 0) 1 (real_box (f_box f')) (load_group argsort None (key_of f' 0) (attributes scene_names gr')) (pipe_look r))).
Proof.
  intros s argsort Hs Harg r.
  assert (Ex : extent r = 1 / 2) by (unfold extent, x_extent, y_extent, r; cbn [r_xmin r_xmax r_ymin r_ymax]; rewrite Rmax_left; lra).
  set (mk := match mm_keys (mask_meta_of scene_file) with m :: _ => m | [] => mk_mask_key [] 0 end).
  destruct (C127_project argsort scene_file 0 (mk_group 2 (Some true) [0; 1]%Z [1; 1]%Z (Some ([v3 0 0 0; v3 1 0 0], [v3 1 2 2; v3 2 2 2])) (map st_field (pipe_fields pipe_parts)))
    scene_names mk s (fun _ => 0) 1 (pipe_look r) r
    (1 / 16) (Some [1 # 8; 7 # 8]%Q) (Some [1 # 8; 7 # 8]%Q) false (Some true) true (Some true) pipe_parts) as (st & f' & gr' & E & Ew & Eg & P); auto; try reflexivity.
  - exact scene_wf.
  - exact scene_tiled.
  - eexists. reflexivity.
  - apply pipe_file.
  - apply pipe_file.
  - intros [|[|i]] p Ep; cbn in Ep; [injection Ep as <-|injection Ep as <-|destruct i; discriminate].
    + exists (nth 0 (key_cells mk) (ex_left 0 0)), (v3 (1 # 2) (1 # 2) (1 # 2)). split; [left; reflexivity|]. split; [unfold stored_in; cbn; lia|].
      split; [intros []; cbn; unfold Qle, Qlt; cbn; lia|].
      split; [intros []; exists 0%Z; cbn; unfold Qle; cbn; lia|].
      repeat split; unfold Q2R; cbn; lra.
    + exists (nth 1 (key_cells mk) (ex_left 0 0)), (v3 (3 # 2) (1 # 2) (1 # 2)). split; [right; left; reflexivity|]. split; [unfold stored_in; cbn; lia|].
      split; [intros []; cbn; unfold Qle, Qlt; cbn; lia|].
      split; [intros []; exists 0%Z; cbn; unfold Qle; cbn; lia|].
      repeat split; unfold Q2R; cbn; lra.
  - left. reflexivity.
  - cbn. lia.
  - unfold x_extent, r. cbn. lra.
  - unfold y_extent, r. cbn. lra.
  - intros p [<-|[<-|[]]]; cbn [p_h]; unfold gamma2; lra.
  - split; [reflexivity|]. intros x [<-|[<-|[<-|[]]]]; cbn; auto.
  - cbn. repeat split; repeat constructor; unfold Qle; cbn; lia.
  - cbn [widened r r_xmin]. rewrite Ex. unfold Q2R. cbn [Qnum Qden]. lra.
  - cbn [widened r r_ymin]. rewrite Ex. unfold Q2R. cbn [Qnum Qden]. lra.
  - exists st, f', gr'. split; [exact E|]. split; [|auto].
    assert (Es : st = fst (constrain_spatial (mask_meta_of scene_file) [Some [1 # 8; 7 # 8]; Some [1 # 8; 7 # 8]; None]%Q false (new_mask (mask_meta_of scene_file)))) by (rewrite E; reflexivity).
    rewrite Es. vm_compute. reflexivity.
Qed.

(** The subset file of the case is one that masks can be made for. *)
Example C127_masked_case : forall argsort, is_argsort argsort ->
  exists st f' gr', subset_of argsort scene_file f' st 0
    (mk_group 2 (Some true) [0; 1]%Z [1; 1]%Z (Some ([v3 0 0 0; v3 1 0 0], [v3 1 2 2; v3 2 2 2])) (map st_field (pipe_fields pipe_parts))) gr'
    /\ (forall mk c, In mk (mm_keys (mask_meta_of scene_file)) -> In c (key_cells mk) -> extent_ok (f_box scene_file) c).
Proof.
  intros argsort Harg.
  destruct (constrain_spatial (mask_meta_of scene_file) [Some [1 # 8; 7 # 8]; Some [1 # 8; 7 # 8]; None]%Q false (new_mask (mask_meta_of scene_file))) as (st & e) eqn:E.
  assert (e = None) as -> by (change e with (snd (st, e)); rewrite <- E; vm_compute; reflexivity).
  assert (Ms : masked_rows (ms_masks st) 0 = [0%Z]) by (change st with (fst (st, @None pyerr)); rewrite <- E; vm_compute; reflexivity).
  set (gr := mk_group 2 (Some true) [0; 1]%Z [1; 1]%Z (Some ([v3 0 0 0; v3 1 0 0], [v3 1 2 2; v3 2 2 2])) (map st_field (pipe_fields pipe_parts))).
  destruct (spatial_written argsort scene_file [Some [1 # 8; 7 # 8]; Some [1 # 8; 7 # 8]; None]%Q false st gr 0 Harg scene_wf scene_tiled) as (Hm & f' & gr' & Ew & Eg).
  { eexists. reflexivity. }
  { exact E. }
  { split; [reflexivity|]. intros x [<-|[<-|[<-|[]]]]; cbn; auto. }
  { cbn. repeat split; repeat constructor; unfold Qle; cbn; lia. }
  { reflexivity. }
  exists st, f', gr'. split.
  - unfold subset_of. repeat match goal with |- _ /\ _ => split end; auto.
    + exact scene_wf.
    + exact scene_tiled.
    + eexists. reflexivity.
    + exists false. exact Ew.
    + intros [|[|g]] gr0 Hg _; cbn in Hg; try discriminate. exists 0%Z. unfold selected. change (key_of scene_file 0) with 0%nat. rewrite Ms. left. reflexivity.
    + destruct (write_subset_ok argsort scene_file st false Harg scene_wf scene_tiled Hm (ex_intro _ _ eq_refl)) as (f2 & E2 & _ & _ & _ & _ & _ & _ & _ & G).
      { left. intro C. unfold write_subset in Ew. rewrite C in Ew. discriminate. }
      rewrite Ew in E2. injection E2 as <-. destruct (G 0%nat gr eq_refl) as (gr2 & Hg2 & (Hh & _)). rewrite Eg in Hg2. injection Hg2 as <-.
      unfold present. rewrite Hh. reflexivity.
  - intros mk c [<-|[]]. intros [<-|[<-|[]]]; intros []; cbn; unfold Qle, Qlt; cbn; lia.
Qed.

Print Assumptions C127_group.
Print Assumptions C127_pictures.
Print Assumptions C127_project.
Print Assumptions C127_slice.
Print Assumptions C127_render.
Print Assumptions C127_masked_project.
Print Assumptions C127_masked_slice.
Print Assumptions C127_masked_render.

(** Proofs about pictures of empty and reversed regions. *)
From Coq Require Import List ZArith Reals Bool Lra Lia.
From Verif Require Import Base BaseLemmas VisModel RotModel HsmlModel FrontModel DegenModel DegenSpec VisSumProofs.
Import ListNotations.
Open Scope R_scope.

(** * Numbers *)

Lemma ndiv_fin x y : y <> 0 -> ndiv (Fin x) (Fin y) = Fin (x / y).
Proof. intros H. cbn. destruct (Req_EM_T y 0); [contradiction|reflexivity]. Qed.

Lemma ndiv_zero x : finite (ndiv (Fin x) (Fin 0)) -> False.
Proof.
  intros [r H]. cbn in H. destruct (Req_EM_T 0 0); [|lra]. destruct (Req_EM_T x 0); [discriminate|].
  destruct (Rlt_dec 0 x); discriminate.
Qed.

Lemma nmod_fin x y : y <> 0 -> nmod (Fin x) (Fin y) = Fin (rmod x y).
Proof. intros H. cbn. destruct (Req_EM_T y 0); [contradiction|reflexivity]. Qed.

Lemma nrem_fin periodic x y : (periodic = true -> y <> 0) -> nrem_if periodic (Fin x) (Fin y) = Fin (rem_if periodic x y).
Proof. destruct periodic; intros H; [|reflexivity]. now apply nmod_fin, H. Qed.

Lemma npixels_fin n range mr : mr <> 0 -> npixels n range mr = Ok (pixels n range mr).
Proof. intros H. unfold npixels. rewrite ndiv_fin by exact H. reflexivity. Qed.

Lemma npixels_slice_fin n range mr : mr <> 0 -> npixels_slice n range mr = Ok (pixels_slice n range mr).
Proof. intros H. unfold npixels_slice. rewrite ndiv_fin by exact H. reflexivity. Qed.

Lemma npixels_zero n : npixels n 0 0 = Err ValueError.
Proof.
  unfold npixels, ndiv. destruct (Req_EM_T 0 0); [|lra]. reflexivity.
Qed.

Lemma npixels_below n range : (0 < n)%Z -> range < 0 -> npixels n range 0 = Err OverflowErr.
Proof.
  intros N H. apply IZR_lt in N. unfold npixels, ndiv, nmul, int_ceil. destruct (Req_EM_T 0 0); [|lra]. destruct (Req_EM_T range 0); [lra|].
  destruct (Rlt_dec 0 range); [lra|]. destruct (Req_EM_T (IZR n) 0); [lra|]. reflexivity.
Qed.

Lemma npixels_slice_zero n : npixels_slice n 0 0 = Err ValueError.
Proof.
  unfold npixels_slice, ndiv. rewrite Rmult_0_r. destruct (Req_EM_T 0 0); [|lra]. reflexivity.
Qed.

Lemma npixels_slice_below n range : (0 < n)%Z -> range < 0 -> npixels_slice n range 0 = Err OverflowErr.
Proof.
  intros N H. apply IZR_lt in N. unfold npixels_slice, ndiv, int_ceil. destruct (Req_EM_T 0 0); [|lra].
  assert (IZR n * range < 0) by nra. destruct (Req_EM_T (IZR n * range) 0); [lra|]. destruct (Rlt_dec 0 (IZR n * range)); [lra|]. reflexivity.
Qed.

Lemma npixels_none n range : fails (npixels n range 0).
Proof.
  unfold fails, npixels, ndiv. destruct (Req_EM_T 0 0); [|lra]. destruct (Req_EM_T range 0); [eexists; reflexivity|].
  destruct (Rlt_dec 0 range); unfold nmul; destruct (Req_EM_T (IZR n) 0); eexists; reflexivity.
Qed.

Lemma npixels_slice_none n range : fails (npixels_slice n range 0).
Proof.
  unfold fails, npixels_slice, ndiv. destruct (Req_EM_T 0 0); [|lra]. destruct (Req_EM_T (IZR n * range) 0); [eexists; reflexivity|].
  destruct (Rlt_dec 0 (IZR n * range)); eexists; reflexivity.
Qed.

(** * Regions *)

Definition sides_are (i : info) (box : vec) (r : option region) : Prop :=
  i_xrange i = side_x box r /\ i_yrange i = side_y box r /\ i_zrange i = side_z box r
  /\ i_max i = Rmax (side_x box r) (side_y box r).

Lemma region_info_sides cubic periodic box r i : region_info cubic periodic box r = Ok i ->
  sides_are i box r
  /\ i_box i = (let '(lx, ly, lz) := box in if periodic then (lx / i_max i, ly / i_max i, lz / i_max i) else (0, 0, 0)).
Proof.
  destruct box as [[lx ly] lz]. unfold region_info, sides_are, side_x, side_y, side_z. cbn [fst snd].
  destruct r as [[x0 x1 y0 y1 [[z0 z1]|]]|]; cbn [r_xmin r_xmax r_ymin r_ymax r_z].
  all: destruct (cubic && _); [discriminate|]; intros H; injection H as <-.
  all: cbn [i_xrange i_yrange i_zrange i_max i_box]; rewrite ?Rminus_0_r; repeat match goal with |- _ /\ _ => split end; reflexivity.
Qed.

Lemma region_info_free periodic box r : exists i, region_info false periodic box r = Ok i.
Proof.
  destruct box as [[lx ly] lz]. unfold region_info.
  destruct r as [[x0 x1 y0 y1 [[z0 z1]|]]|]; cbn [r_xmin r_xmax r_ymin r_ymax r_z andb]; eexists; reflexivity.
Qed.

Lemma empty_max box r : empty_region box r <-> Rmax (side_x box r) (side_y box r) = 0.
Proof.
  unfold empty_region, Rmax. destruct (Rle_dec (side_x box r) (side_y box r)); split; intros; lra.
Qed.

Lemma div_not_zero x y : x <> 0 -> y <> 0 -> x / y <> 0.
Proof. intros Hx Hy E. apply Hx. replace x with (x / y * y) by (field; exact Hy). rewrite E. ring. Qed.

Lemma nbox_fin periodic box mr : mr <> 0 ->
  nbox periodic box mr = let '(lx, ly, lz) := box in
    if periodic then (Fin (lx / mr), Fin (ly / mr), Fin (lz / mr)) else (Fin 0, Fin 0, Fin 0).
Proof. intros H. destruct box as [[lx ly] lz]. unfold nbox. destruct periodic; [|reflexivity]. now rewrite !ndiv_fin by exact H. Qed.

(** * Regular regions *)

Definition fin3 (v : vec) : num * num * num := let '(x, y, z) := v in (Fin x, Fin y, Fin z).

Lemma nbox_info cubic periodic box r i : region_info cubic periodic box r = Ok i -> i_max i <> 0 ->
  nbox periodic box (i_max i) = fin3 (i_box i).
Proof.
  intros H M. destruct (region_info_sides _ _ _ _ _ H) as [_ ->]. rewrite nbox_fin by exact M. destruct box as [[lx ly] lz].
  destruct periodic; reflexivity.
Qed.

Lemma box_full cubic periodic box r i : region_info cubic periodic box r = Ok i -> i_max i <> 0 ->
  (periodic = true -> full_box box) -> periodic = true -> full_box (i_box i).
Proof.
  intros H M F P. destruct (region_info_sides _ _ _ _ _ H) as [_ ->]. specialize (F P). destruct box as [[lx ly] lz]. rewrite P.
  destruct F as (A & B & C). cbn [full_box]. auto using div_not_zero.
Qed.

Lemma nnormed2_plain periodic i p : i_max i <> 0 -> (periodic = true -> full_box (i_box i)) ->
  nnormed2 periodic i (fin3 (i_box i)) p = plain (normed2 periodic i p).
Proof.
  intros M F. unfold nnormed2, normed2, plain. destruct (i_box i) as [[bx by_] bz]. cbn [fin3]. rewrite !ndiv_fin by exact M.
  cbn [p_x p_y p_z p_m p_h]. rewrite !nrem_fin by (intros P; specialize (F P); cbn in F; tauto). reflexivity.
Qed.

Lemma nnormed_slice_plain periodic i p : i_max i <> 0 -> (periodic = true -> full_box (i_box i)) ->
  nnormed_slice periodic i (fin3 (i_box i)) p = plain (normed_slice periodic i p).
Proof.
  intros M F. unfold nnormed_slice, normed_slice, plain. destruct (i_box i) as [[bx by_] bz]. cbn [fin3]. rewrite !ndiv_fin by exact M.
  cbn [p_x p_y p_z p_m p_h]. rewrite !nrem_fin by (intros P; specialize (F P); cbn in F; tauto). reflexivity.
Qed.

Lemma nnormed3_plain periodic i p : i_xrange i <> 0 -> i_yrange i <> 0 -> i_zrange i <> 0 -> (periodic = true -> full_box (i_box i)) ->
  nnormed3 periodic i (fin3 (i_box i)) p = plain (normed3 periodic i p).
Proof.
  intros X Y Z0 F. unfold nnormed3, normed3, plain. destruct (i_box i) as [[bx by_] bz]. cbn [fin3]. rewrite !ndiv_fin by assumption.
  cbn [p_x p_y p_z p_m p_h]. rewrite !nrem_fin by (intros P; specialize (F P); cbn in F; tauto). reflexivity.
Qed.

Lemma convert_not_zero a d coords f v : a <> 0 -> v <> 0 -> convert a d coords f v <> 0.
Proof.
  intros A H. pose proof (pow_nonzero a d A). unfold convert. destruct coords, f; auto using div_not_zero, Rmult_integral_contrapositive_currified.
Qed.

Lemma nnormalise_plain a d coords frame norm img c : a <> 0 -> norm <> 0 ->
  nnormalise a d coords frame norm (plain_image img) c = Fin (normalise a d coords frame norm img c).
Proof.
  intros A H. unfold nnormalise, normalise, plain_image. destruct frame as [f|]; apply ndiv_fin; [now apply convert_not_zero|lra].
Qed.

Lemma ceil_zero : ceil 0 = 0%Z.
Proof. apply ceil_unique. lra. Qed.

Lemma project_regular nb b a coords frame n periodic box r rotation mask ps : extends2 nb b -> a <> 0 -> (0 <= n)%Z ->
  (periodic = true -> full_box box) -> ~ empty_region box r ->
  same_picture (nproject nb a coords frame n periodic box r rotation mask ps) (project b a coords frame n periodic box r rotation mask ps).
Proof.
  intros Hb Ha Hn Hbox Hne. unfold nproject, project. destruct (region_info_free periodic box r) as [i Hi]. rewrite Hi. cbn [bind].
  pose proof Hi as Hs. apply region_info_sides in Hs. destruct Hs as [(Sx & Sy & Sz & Sm) _].
  assert (M : i_max i <> 0) by (rewrite Sm; intros E; apply Hne; now apply empty_max).
  rewrite (nbox_info _ _ _ _ _ Hi M). pose proof (box_full _ _ _ _ _ Hi M Hbox) as F.
  destruct (placed periodic box rotation ps) as [[qs stored]|e]; cbn [bind]; [|reflexivity].
  destruct (depth_mask periodic box i mask qs) as [mask'|e]; cbn [bind]; [|reflexivity].
  destruct (pick mask' qs) as [used|e]; cbn [bind]; [|reflexivity].
  rewrite (map_ext _ _ (fun p => nnormed2_plain periodic i p M F)). rewrite <- (map_map (normed2 periodic i) plain).
  destruct (i_box i) as [[bx by_] bz] eqn:Eb. cbn [fin3 fst snd]. rewrite Hb.
  destruct (b n bx by_ (map (normed2 periodic i) used)) as [img|e]; cbn [plain_result bind]; [|reflexivity].
  rewrite !npixels_fin by exact M. cbn [bind same_picture np_shape np_image pic_shape pic_image]. split; [reflexivity|]. split; [reflexivity|].
  intros c Hc. apply nnormalise_plain; [exact Ha|]. intros E. apply Rmult_integral in E.
  assert (Hz : forall k, In k [stop_index n (pixels n (i_xrange i) (i_max i)); stop_index n (pixels n (i_yrange i) (i_max i))] -> (0 < k)%Z).
  { intros k Hk. inversion Hc as [|? ? ? ? H1 H2]; subst. inversion H2 as [|? ? ? ? H3 H4]; subst. destruct Hk as [<- |[<- |[]]]; lia. }
  assert (P0 : forall m, stop_index n (pixels n 0 m) = 0%Z).
  { intros m. unfold pixels. replace (IZR n * (0 / m)) with 0 by (unfold Rdiv; ring). rewrite ceil_zero. unfold stop_index. cbn. lia. }
  destruct E as [E|E]; rewrite E in Hz; specialize (Hz _ (or_introl (P0 _))) || specialize (Hz _ (or_intror (or_introl (P0 _)))); lia.
Qed.

Lemma pixels_slice_nonneg n range mr : (0 <= n)%Z -> 0 <= range -> 0 < mr -> (0 <= pixels_slice n range mr)%Z.
Proof.
  intros N Hr Hm. unfold pixels_slice. pose proof (ceil_spec (IZR n * range / mr)) as [H _]. apply IZR_le in N.
  assert (0 <= IZR n * range / mr) by (apply Rmult_le_pos; [nra|left; now apply Rinv_0_lt_compat]).
  apply le_IZR. lra.
Qed.

Lemma slice_shape_regular parallel xres yres : (0 <= xres)%Z -> (0 <= yres)%Z -> slice_shape parallel xres yres = Ok [xres; yres].
Proof.
  intros X Y. unfold slice_shape, stop_index. destruct parallel.
  - destruct (xres <? 0)%Z eqn:E1; [apply Z.ltb_lt in E1; lia|]. destruct (yres <? 0)%Z eqn:E2; [apply Z.ltb_lt in E2; lia|]. reflexivity.
  - destruct (xres <? 0)%Z eqn:E1; [apply Z.ltb_lt in E1; lia|]. destruct (yres <? 0)%Z eqn:E2; [apply Z.ltb_lt in E2; lia|].
    rewrite !Z.min_l by lia. reflexivity.
Qed.

Lemma slice_regular nb b parallel a coords frame n z_slice periodic box r rotation mask ps : extends_slice nb b -> a <> 0 -> (0 <= n)%Z ->
  (periodic = true -> full_box box) -> 0 <= side_x box r -> 0 <= side_y box r -> ~ empty_region box r ->
  same_picture (nslice nb parallel a coords frame n z_slice periodic box r rotation mask ps)
               (slice_grid b a coords frame n z_slice periodic box r rotation mask ps).
Proof.
  intros Hb Ha Hn Hbox Hx Hy Hne. unfold nslice, slice_grid. destruct (region_info_free periodic box r) as [i Hi]. rewrite Hi. cbn [bind].
  pose proof Hi as Hs. apply region_info_sides in Hs. destruct Hs as [(Sx & Sy & Sz & Sm) _].
  assert (M : i_max i <> 0) by (rewrite Sm; intros E; apply Hne; now apply empty_max).
  assert (M0 : 0 < i_max i). { rewrite Sm in *. pose proof (Rmax_l (side_x box r) (side_y box r)). lra. }
  rewrite (nbox_info _ _ _ _ _ Hi M). pose proof (box_full _ _ _ _ _ Hi M Hbox) as F.
  destruct (placed periodic box rotation ps) as [[qs stored]|e]; cbn [bind]; [|reflexivity].
  rewrite !npixels_slice_fin by exact M. cbn [bind].
  destruct (pick mask qs) as [used|e]; cbn [bind]; [|reflexivity].
  rewrite slice_shape_regular by (apply pixels_slice_nonneg; [exact Hn|rewrite ?Sx, ?Sy; assumption|exact M0]). cbn [bind].
  rewrite (map_ext _ _ (fun p => nnormed_slice_plain periodic i p M F)). rewrite <- (map_map (normed_slice periodic i) plain).
  destruct (i_box i) as [[bx by_] bz] eqn:Eb. cbn [fin3 fst snd]. rewrite ndiv_fin by exact M.
  rewrite nrem_fin by (intros P; specialize (F P); cbn in F; tauto). rewrite Hb.
  match goal with |- context [plain_result ?x] => destruct x as [img|e]; cbn [plain_result bind]; [|reflexivity] end.
  cbn [same_picture np_shape np_image pic_shape pic_image]. split; [reflexivity|]. split; [reflexivity|].
  intros c Hc. apply nnormalise_plain; [exact Ha|]. now apply pow_nonzero.
Qed.

Lemma voxels_regular nb b a coords frame n periodic box r rotation mask ps : extends3 nb b -> a <> 0 ->
  (periodic = true -> full_box box) -> side_x box r <> 0 -> side_y box r <> 0 -> side_z box r <> 0 ->
  same_picture (nvoxels nb a coords frame n periodic box r rotation mask ps) (voxel_grid b a coords frame n periodic box r rotation mask ps).
Proof.
  intros Hb Ha Hbox Hx Hy Hz. unfold nvoxels, voxel_grid. destruct (region_info true periodic box r) as [i|e] eqn:Hi; cbn [bind]; [|reflexivity].
  pose proof Hi as Hs. apply region_info_sides in Hs. destruct Hs as [(Sx & Sy & Sz & Sm) _].
  assert (M : i_max i <> 0) by (rewrite Sm; unfold Rmax; destruct (Rle_dec _ _); assumption).
  rewrite <- Sx in Hx. rewrite <- Sy in Hy. rewrite <- Sz in Hz.
  rewrite (nbox_info _ _ _ _ _ Hi M). pose proof (box_full _ _ _ _ _ Hi M Hbox) as F.
  destruct (placed periodic box rotation ps) as [[qs stored]|e]; cbn [bind]; [|reflexivity].
  destruct (pick mask qs) as [used|e]; cbn [bind]; [|reflexivity].
  rewrite (map_ext _ _ (fun p => nnormed3_plain periodic i p Hx Hy Hz F)). rewrite <- (map_map (normed3 periodic i) plain).
  destruct (i_box i) as [[bx by_] bz] eqn:Eb. cbn [fin3 fst snd]. rewrite Hb.
  match goal with |- context [plain_result ?x] => destruct x as [img|e]; cbn [plain_result bind]; [|reflexivity] end.
  cbn [same_picture np_shape np_image pic_shape pic_image]. split; [reflexivity|]. split; [reflexivity|].
  intros c Hc. apply nnormalise_plain; [exact Ha|]. repeat apply Rmult_integral_contrapositive_currified; assumption.
Qed.

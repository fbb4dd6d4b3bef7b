(** Theorems about images of voxel grids (C92). *)
From Coq Require Import String List Arith Reals Bool Lia Lra Permutation.
From Verif Require Import Base BaseLemmas VisModel VolImageModel VolImageSpec VolImageProofs.
Import ListNotations.
Open Scope R_scope.

(** Every pixel of a square grid is the light of its column; rows and columns are exchanged. *)
Theorem C92_pixels d c w : w <> 0 -> vx d = vy d ->
  exists g, render_voxels_to_array d c w = Ok g /\ rows g = vx d /\ cols g = vy d /\
    forall i j, columns_of d i j -> at2 g j i = light d c w i j.
Proof. apply render_pixels. Qed.

(** Grids that are not square are written out of bounds. *)
Theorem C92_not_square d c w : w <> 0 -> (0 < vx d)%nat -> (0 < vy d)%nat -> vx d <> vy d ->
  render_voxels_to_array d c w = Err UndefinedRead.
Proof.
  intros Hw H1 H2 N. unfold render_voxels_to_array.
  apply (image_loop_out d c w _ (zeros (vx d) (vy d)) (vx d - 1) (vy d - 1) Hw); cbn [zeros rows cols];
    [apply in_seq; lia|lia|lia].
Qed.

Theorem C92_zero_width d c : (0 < vx d)%nat -> (0 < vy d)%nat -> (0 < vz d)%nat ->
  render_voxels_to_array d c 0 = Err ZeroDivision.
Proof.
  intros H1 H2 H3. unfold render_voxels_to_array. destruct (vx d) as [|a] eqn:Ea; [lia|].
  destruct (vy d) as [|b] eqn:Eb; [lia|]. destruct (vz d) as [|z] eqn:Ez; [lia|].
  cbn [seq image_loop]. rewrite Eb. cbn [seq row_loop]. rewrite Ez. cbn [seq column_loop].
  unfold voxel_term. destruct (Req_EM_T 0 0); [reflexivity|contradiction].
Qed.

Lemma gauss_pos c w v : 0 < w -> 0 < gauss c w v.
Proof.
  intros Hw. unfold gauss. pose proof sqrt_2pi_pos. apply Rdiv_lt_0_compat; [apply exp_pos|]. apply Rmult_lt_0_compat; assumption.
Qed.
Lemma gauss_top c w v : 0 < w -> v <> c -> gauss c w v < gauss c w c.
Proof.
  intros Hw N. unfold gauss. pose proof sqrt_2pi_pos as Hs.
  apply Rmult_lt_compat_r; [apply Rinv_0_lt_compat, Rmult_lt_0_compat; assumption|].
  apply exp_increasing.
  assert (P : 0 < ((c - v) / w) ^ 2).
  { assert (Q : (c - v) / w <> 0).
    { unfold Rdiv. apply Rmult_integral_contrapositive_currified; [lra|apply Rinv_neq_0_compat; lra]. }
    pose proof (Rsqr_pos_lt _ Q) as P. unfold Rsqr in P. lra. }
  assert (Z : ((c - c) / w) ^ 2 = 0) by (field; lra). rewrite Z. lra.
Qed.
Lemma gauss_centre c w : 0 < w -> gauss c w c = / (w * sqrt (2 * PI)).
Proof.
  intros Hw. unfold gauss. replace (- (((c - c) / w) ^ 2 / 2)) with 0 by (field; lra). rewrite exp_0. unfold Rdiv. apply Rmult_1_l.
Qed.

(** Light is positive, and greatest in columns in which every voxel is at the centre. *)
Theorem C92_bounds d c w i j : 0 < w -> (0 < vz d)%nat ->
  0 < light d c w i j <= INR (vz d) / (w * sqrt (2 * PI)) /\
  (light d c w i j = INR (vz d) / (w * sqrt (2 * PI)) <-> forall k, (k < vz d)%nat -> vat d i j k = c).
Proof.
  intros Hw Hz. unfold Rdiv. rewrite <- (gauss_centre c w Hw). unfold light, column.
  assert (G : forall v, 0 < gauss c w v <= gauss c w c).
  { intros v. split; [apply gauss_pos; exact Hw|]. destruct (Req_dec v c) as [->|N]; [lra|]. apply Rlt_le, gauss_top; assumption. }
  assert (A : forall n s, 0 <= sumR (map (gauss c w) (map (vat d i j) (seq s n))) <= INR n * gauss c w c /\
    (sumR (map (gauss c w) (map (vat d i j) (seq s n))) = INR n * gauss c w c <->
     forall k, (s <= k < s + n)%nat -> vat d i j k = c)).
  { induction n as [|n IH]; intros s.
    - cbn. split; [lra|]. split; [intros _ k Hk; lia|intros _; lra].
    - destruct (IH (S s)) as [[I1 I2] I3]. cbn [seq map]. unfold sumR in *. cbn [fold_right].
      pose proof (G (vat d i j s)) as [G1 G2]. rewrite S_INR. split; [lra|]. split.
      + intros E k Hk. assert (E2 : fold_right Rplus 0 (map (gauss c w) (map (vat d i j) (seq (S s) n))) = INR n * gauss c w c) by lra.
        destruct (Nat.eq_dec k s) as [->|NE]; [|apply (proj1 I3 E2); lia].
        destruct (Req_dec (vat d i j s) c) as [Q|Q]; [exact Q|]. pose proof (gauss_top c w _ Hw Q). lra.
      + intros H. rewrite (proj2 I3) by (intros k Hk; apply H; lia). rewrite (H s) by lia. lra. }
  destruct (A (vz d) 0%nat) as [[A1 A2] A3]. split; [split; [|exact A2]|].
  - destruct (vz d) as [|z]; [lia|]. cbn [seq map]. unfold sumR. cbn [fold_right].
    pose proof (G (vat d i j 0%nat)) as [G1 _].
    assert (A0 : forall l, 0 <= fold_right Rplus 0 (map (gauss c w) l)).
    { induction l as [|x l IH]; cbn; [lra|]. pose proof (G x) as [? _]. lra. }
    pose proof (A0 (map (vat d i j) (seq 1 z))). lra.
  - rewrite A3. split; intros H k Hk; apply H; lia.
Qed.

Lemma sumR_perm l l' : Permutation l l' -> sumR l = sumR l'.
Proof. unfold sumR. induction 1; cbn; lra. Qed.
(** The order of the voxels along the line of sight does not matter, so neither do the two ends of it. *)
Theorem C92_order d d' c w g g' : w <> 0 -> vx d = vy d -> vx d' = vx d -> vy d' = vy d ->
  (forall i j, columns_of d i j -> Permutation (column d i j) (column d' i j)) ->
  render_voxels_to_array d c w = Ok g -> render_voxels_to_array d' c w = Ok g' ->
  forall i j, columns_of d i j -> at2 g' j i = at2 g j i.
Proof.
  intros Hw Hs E1 E2 P Eg Eg' i j C.
  destruct (C92_pixels d c w Hw Hs) as (h & Eh & _ & _ & A). rewrite Eg in Eh. injection Eh as <-.
  destruct (C92_pixels d' c w Hw) as (h & Eh & _ & _ & A'); [congruence|]. rewrite Eg' in Eh. injection Eh as <-.
  rewrite (A i j C). rewrite (A' i j) by (destruct C; split; congruence).
  symmetry. unfold light. apply sumR_perm, Permutation_map, P. exact C.
Qed.

Lemma widths_given_list a n ws : widths_given a n ws -> widths_list a n = Some ws.
Proof.
  destruct a as [w|l|]; cbn; [|intros ->; reflexivity|intros []].
  intros [L H]. f_equal. subst n. induction ws as [|x ws IH]; [reflexivity|]. cbn [length repeat].
  rewrite (H x (or_introl eq_refl)). f_equal. apply IH. intros y Hy. apply H. right. exact Hy.
Qed.
Lemma norms_given_list a n heap refs : norms_given a n heap refs -> norm_list a n = (heap, refs).
Proof.
  destruct a as [|x|h r]; cbn [norms_given norm_list].
  - intros (L1 & L2 & H). f_equal.
    + symmetry. apply nth_error_ext'; [rewrite repeat_length; exact L1|]. intros k. destruct (Nat.lt_ge_cases k n) as [Hk|Hk].
      * destruct (H k Hk) as [-> _]. symmetry. apply nth_error_repeat. exact Hk.
      * transitivity (@None normalize); [apply nth_error_None; lia|]. symmetry. apply nth_error_None. rewrite repeat_length. exact Hk.
    + symmetry. apply nth_error_ext'; [rewrite seq_length; exact L2|]. intros k. destruct (Nat.lt_ge_cases k n) as [Hk|Hk].
      * destruct (H k Hk) as [_ ->]. symmetry. rewrite nth_error_nth' with (d := 0%nat) by (rewrite seq_length; exact Hk).
        rewrite seq_nth by exact Hk. reflexivity.
      * transitivity (@None nat); [apply nth_error_None; lia|]. symmetry. apply nth_error_None. rewrite seq_length. exact Hk.
  - intros (-> & L & H). f_equal. subst n. induction refs as [|r refs IH]; [reflexivity|].
    cbn [length repeat]. rewrite (H r (or_introl eq_refl)). f_equal. apply IH. intros y Hy. apply H. right. exact Hy.
  - intros [-> ->]. reflexivity.
Qed.

Lemma linspace_length a b n : length (linspace a b n) = n.
Proof. unfold linspace. rewrite map_length. apply seq_length. Qed.
Lemma linspace_nth a b n k : (k < n)%nat -> nth_error (linspace a b n) k = Some (a + INR k * ((b - a) / INR (n - 1))).
Proof.
  intros Hk. unfold linspace. rewrite nth_error_map. rewrite nth_error_nth' with (d := 0%nat) by (rewrite seq_length; exact Hk).
  rewrite seq_nth by exact Hk. reflexivity.
Qed.
Lemma nth_error_combine {A B} (l : list A) (m : list B) k p :
  nth_error (combine l m) k = Some p <-> nth_error l k = Some (fst p) /\ nth_error m k = Some (snd p).
Proof.
  revert m k. induction l as [|x l IH]; intros [|y m] [|k]; cbn; try (split; [discriminate|intros [? ?]; discriminate]).
  - split; [intros E; injection E as <-; split; reflexivity|]. destruct p; cbn. intros [E1 E2]. congruence.
  - apply IH.
Qed.

(** All images: as many as the shortest of the lists has entries.  Pixel (i, j) of image k is the colour
    of centre k, taken from the whole list of centres, times the scaled light of column (i, j).  The
    norms are returned with the limits that were used; those not used are unchanged. *)
Theorem C92_images cmaps m d centers widths ws cmap norm heap refs :
  vx d = vy d -> (0 < vx d)%nat -> cmaps cmap = Some m ->
  widths_given widths (length centers) ws -> Forall (fun w => w <> 0) ws ->
  norms_given norm (length centers) heap refs -> Forall sane heap ->
  Forall (fun r => (r < length heap)%nat) refs ->
  exists ims heap', visualise_render cmaps d centers widths cmap "all" norm = Ok (Some (Images ims), heap', refs) /\
    length ims = Nat.min (length refs) (Nat.min (length centers) (length ws)) /\
    (forall k im, nth_error ims k = Some im ->
      exists c w clip lo hi, nth_error centers k = Some c /\ nth_error ws k = Some w /\
        limits d heap refs centers ws k clip lo hi /\
        (exists r, nth_error refs k = Some r /\ nth_error heap' r = Some (mknorm (Some lo) (Some hi) clip)) /\
        irows im = vx d /\ icols im = vy d /\
        forall i j, columns_of d i j -> exists x, scaled clip lo hi (light d c w i j) x /\
          forall ch, iat im i j ch = m (colour_place (length centers) k) ch * x) /\
    (forall r, ~ In r (firstn (length ims) refs) -> nth_error heap' r = nth_error heap r).
Proof.
  intros Hs Hp Hm HWS HW HN HS HR. unfold visualise_render.
  rewrite (norms_given_list _ _ _ _ HN), Hm, (widths_given_list _ _ _ HWS).
  destruct (render_all_ok d Hs Hp refs heap centers ws HW HS HR) as (heap' & gs & E). rewrite E. cbn [bind fst snd].
  destruct (render_all_limits d Hs Hp refs heap centers ws heap' gs HW E) as [L H].
  set (ims := map _ (combine _ gs)).
  assert (LI : length ims = length gs).
  { unfold ims. rewrite map_length, combine_length, map_length, linspace_length. lia. }
  exists ims, heap'. split; [reflexivity|]. split; [congruence|]. split.
  - intros k im Hk. unfold ims in Hk. rewrite nth_error_map in Hk.
    destruct (nth_error (combine _ gs) k) as [[col g]|] eqn:Ek; [|discriminate]. cbn in Hk. injection Hk as <-.
    apply nth_error_combine in Ek. cbn [fst snd] in Ek. destruct Ek as [Ec Eg].
    destruct (H k g Eg) as (c & w & clip & lo & hi & A1 & A2 & A3 & A4 & A5 & A6 & A7).
    exists c, w, clip, lo, hi. do 4 (split; [assumption|]). cbn [coloured irows icols iat].
    split; [congruence|]. split; [congruence|]. intros i j C. exists (at2 g j i). split; [apply A7; exact C|].
    intros ch. rewrite nth_error_map in Ec.
    assert (Hk : (k < length centers)%nat) by (apply nth_error_Some; congruence).
    rewrite linspace_nth in Ec by exact Hk. cbn in Ec. injection Ec as <-. f_equal. f_equal.
    unfold colour_place, Rdiv. rewrite Rplus_0_l, Rminus_0_r, Rmult_1_l. reflexivity.
  - intros r Hr. rewrite LI in Hr. exact (render_all_unused d _ _ _ _ _ _ r E Hr).
Qed.

(** The other return types, in terms of all images. *)
Lemma combined_pixels (f : R -> R -> R) l a p q ch :
  iat (fold_left (im_op f) l a) p q ch = fold_left f (map (fun im => iat im p q ch) l) (iat a p q ch).
Proof. revert a. induction l as [|b l IH]; intros a; cbn [fold_left map]; [reflexivity|]. apply (IH (im_op f a b)). Qed.
Lemma combined_shape (f : R -> R -> R) l a :
  irows (fold_left (im_op f) l a) = irows a /\ icols (fold_left (im_op f) l a) = icols a.
Proof. revert a. induction l as [|b l IH]; intros a; cbn [fold_left]; [split; reflexivity|]. apply (IH (im_op f a b)). Qed.
Lemma fold_plus l x : fold_left Rplus l x = sumR (x :: l).
Proof. unfold sumR. revert x. induction l as [|a l IH]; intros x; cbn [fold_left fold_right]; [lra|]. rewrite IH. cbn. lra. Qed.

Definition outcome_of (ims : list image) (o : option shown) (rt : string) : Prop :=
  (rt = "all"%string /\ o = Some (Images ims)) \/
  (rt = "lighten"%string /\ exists im, o = Some (OneImage im) /\
     (forall a, hd_error ims = Some a -> irows im = irows a /\ icols im = icols a) /\
     forall i j ch, (exists a, In a ims /\ iat a i j ch = iat im i j ch) /\
                    (forall a, In a ims -> iat a i j ch <= iat im i j ch)) \/
  (rt = "add"%string /\ ims <> [] /\ exists im, o = Some (OneImage im) /\
     (forall a, hd_error ims = Some a -> irows im = irows a /\ icols im = icols a) /\
     forall i j ch, iat im i j ch = sumR (map (fun a => iat a i j ch) ims)) \/
  (rt = "add"%string /\ ims = [] /\ o = Some IntZero) \/
  (~ In rt ["all"; "lighten"; "add"]%string /\ o = None).

Theorem C92_return_types cmaps d centers widths cmap norm ims heap refs rt :
  visualise_render cmaps d centers widths cmap "all" norm = Ok (Some (Images ims), heap, refs) ->
  (rt = "lighten"%string /\ ims = [] /\ visualise_render cmaps d centers widths cmap rt norm = Err ValueError) \/
  (exists o, visualise_render cmaps d centers widths cmap rt norm = Ok (o, heap, refs) /\ outcome_of ims o rt).
Proof.
  unfold visualise_render. destruct (norm_list norm (length centers)) as [h r]. destruct (cmaps cmap) as [m|]; [|discriminate].
  destruct (widths_list widths (length centers)) as [ws|]; [|discriminate].
  destruct (render_all d h r centers ws) as [[h2 gs]|]; [|discriminate]. cbn [bind fst snd].
  set (L := map _ (combine _ gs)). intros E. cbn in E. injection E as E <- <-. subst L. rewrite E. clear E.
  unfold combined, outcome_of.
  destruct (String.eqb_spec rt "all") as [->|N1]; [right; eexists; split; [reflexivity|left; split; reflexivity]|].
  destruct (String.eqb_spec rt "lighten") as [->|N2].
  { destruct ims as [|a l]; [left; repeat split|]. right. eexists. split; [reflexivity|]. right. left. split; [reflexivity|].
    eexists. split; [reflexivity|]. split; [intros b Hb; injection Hb as <-; apply combined_shape|].
    intros i j ch. rewrite combined_pixels. destruct (fold_max (map (fun im => iat im i j ch) l) (iat a i j ch)) as [A B].
    change (iat a i j ch :: map (fun im => iat im i j ch) l) with (map (fun im => iat im i j ch) (a :: l)) in A, B.
    split; [apply in_map_iff in A; destruct A as (b & Hb1 & Hb2); exists b; split; assumption|].
    intros b Hb. apply B. exact (in_map (fun im => iat im i j ch) _ _ Hb). }
  destruct (String.eqb_spec rt "add") as [->|N3].
  { right. destruct ims as [|a l]; (eexists; split; [reflexivity|]); right; right; [right; left; repeat split|left].
    split; [reflexivity|]. split; [discriminate|]. eexists. split; [reflexivity|].
    split; [intros b Hb; injection Hb as <-; apply combined_shape|].
    intros i j ch. rewrite combined_pixels. apply fold_plus. }
  right. eexists. split; [reflexivity|]. do 4 right. split; [|reflexivity].
  intros [Q|[Q|[Q|[]]]]; congruence.
Qed.

Theorem C92_failures cmaps d centers widths cmap norm rt e :
  visualise_render cmaps d centers widths cmap "all" norm = Err e ->
  visualise_render cmaps d centers widths cmap rt norm = Err e.
Proof.
  unfold visualise_render. destruct (norm_list norm (length centers)) as [h r]. destruct (cmaps cmap) as [m|]; [|exact (fun H => H)].
  destruct (widths_list widths (length centers)) as [ws|]; [|exact (fun H => H)].
  destruct (render_all d h r centers ws) as [[h2 gs]|]; [|exact (fun H => H)]. cbn [bind combined]. discriminate.
Qed.

(** With fresh norms every image uses the whole range from 0 to 1. *)
Theorem C92_fresh cmaps m d centers widths ws cmap :
  vx d = vy d -> (0 < vx d)%nat -> cmaps cmap = Some m ->
  widths_given widths (length centers) ws -> Forall (fun w => w <> 0) ws ->
  exists ims heap refs, visualise_render cmaps d centers widths cmap "all" NNone = Ok (Some (Images ims), heap, refs) /\
    length ims = Nat.min (length centers) (length ws) /\
    forall k im, nth_error ims k = Some im ->
      exists c w lo hi, nth_error centers k = Some c /\ nth_error ws k = Some w /\ darkest d c w lo /\ brightest d c w hi /\
        forall i j, columns_of d i j -> exists x, 0 <= x <= 1 /\ (lo < hi -> x * (hi - lo) = light d c w i j - lo) /\
          (lo = hi -> x = 0) /\ forall ch, iat im i j ch = m (colour_place (length centers) k) ch * x.
Proof.
  intros Hs Hp Hm HWS HW. set (n := length centers).
  assert (HN : norms_given NNone n (repeat fresh n) (seq 0 n)).
  { split; [apply repeat_length|]. split; [apply seq_length|]. intros k Hk. split; [apply nth_error_repeat; exact Hk|].
    rewrite nth_error_nth' with (d := 0%nat) by (rewrite seq_length; exact Hk). rewrite seq_nth by exact Hk. reflexivity. }
  destruct (C92_images cmaps m d centers widths ws cmap NNone (repeat fresh n) (seq 0 n)) as (ims & heap & E & L & H & _); try assumption.
  - apply Forall_forall. intros x Hx. apply repeat_spec in Hx. subst x. exact I.
  - apply Forall_forall. intros x Hx. apply in_seq in Hx. rewrite repeat_length. lia.
  - exists ims, heap, (seq 0 n). split; [exact E|]. split; [rewrite L, seq_length; lia|].
    intros k im Hk. destruct (H k im Hk) as (c & w & clip & lo & hi & A1 & A2 & A3 & _ & _ & _ & A7).
    destruct A3 as (r & x & k0 & c0 & w0 & B1 & B2 & B3 & (B4 & B5 & _) & B6 & B7 & B8 & B9).
    apply nth_error_In in B2 as B2'. apply repeat_spec in B2'. subst x. cbn in B3, B8, B9. subst clip.
    assert (k0 = k) as ->.
    { assert (Hk0 : (k < n)%nat) by (unfold n; apply nth_error_Some; congruence).
      rewrite (nth_error_nth' (seq 0 n) 0%nat) in B5 by (rewrite seq_length; lia).
      rewrite (nth_error_nth' (seq 0 n) 0%nat) in B5 by (rewrite seq_length; lia).
      rewrite !seq_nth in B5 by lia. cbn in B5. congruence. }
    rewrite A1 in B6. injection B6 as <-. rewrite A2 in B7. injection B7 as <-.
    destruct B8 as [B8|[_ B8]]; [discriminate|]. destruct B9 as [B9|[_ B9]]; [discriminate|].
    exists c, w, lo, hi. do 4 (split; [assumption|]). intros i j C. destruct (A7 i j C) as (x & S & Hx).
    exists x. destruct B8 as [_ B8]. destruct B9 as [_ B9]. specialize (B8 i j C). specialize (B9 i j C).
    destruct S as [[Q ->]|(Q & u & Eu & [[_ ->]|[Q2 _]])]; [| |discriminate].
    + split; [lra|]. split; [intros; lra|]. split; [reflexivity|exact Hx].
    + split; [|split; [intros; lra|split; [intros; lra|exact Hx]]].
      split; apply Rmult_le_reg_r with (hi - lo); lra.
Qed.

(** What is refused. *)
Theorem C92_refused cmaps m d centers ws cmap rt norm :
  (forall wa, cmaps cmap = None -> visualise_render cmaps d centers wa cmap rt norm = Err ValueError) /\
  (cmaps cmap = Some m -> visualise_render cmaps d centers WOther cmap rt norm = Err TypeError) /\
  (forall c w cs lo hi clip, cmaps cmap = Some m -> centers = c :: cs -> w <> 0 -> vx d = vy d -> lo < hi ->
     visualise_render cmaps d centers (WList (w :: ws)) cmap rt (NOne (mknorm (Some hi) (Some lo) clip)) = Err ValueError) /\
  (cmaps cmap = Some m -> visualise_render cmaps d [] (WList ws) cmap "lighten" norm = Err ValueError) /\
  (forall wa, cmaps cmap = None -> visualise_render_options cmaps centers wa cmap = Err ValueError) /\
  (cmaps cmap = Some m -> visualise_render_options cmaps centers WOther cmap = Err TypeError) /\
  (forall c cs w heap r refs, cmaps cmap = Some m -> centers = c :: cs -> w <> 0 -> vx d = vy d -> (length heap <= r)%nat ->
     visualise_render cmaps d centers (WList (w :: ws)) cmap rt (NList heap (r :: refs)) = Err TypeError).
Proof.
  unfold visualise_render, visualise_render_options. split; [|split; [|split; [|split; [|split; [|split]]]]].
  - intros wa ->. destruct (norm_list norm (length centers)); reflexivity.
  - intros ->. destruct (norm_list norm (length centers)); reflexivity.
  - intros c w cs lo hi clip -> -> Hw Hs Hl. cbn [norm_list length repeat widths_list render_all].
    destruct (render_pixels d c w Hw Hs) as (g & -> & _). cbn [bind nth_error norm_call nmin nmax].
    destruct (Req_EM_T hi lo); [lra|]. destruct (Rlt_dec lo hi); [reflexivity|lra].
  - intros ->. destruct (norm_list norm (length (@nil R))) as [h r]. cbn [widths_list].
    destruct r; reflexivity.
  - intros wa ->. reflexivity.
  - intros ->. reflexivity.
  - intros c cs w heap r refs -> -> Hw Hs Hr. cbn [norm_list length widths_list render_all].
    destruct (render_pixels d c w Hw Hs) as (g & -> & _). cbn [bind].
    rewrite (proj2 (nth_error_None heap r) Hr). reflexivity.
Qed.

(** The plot of the options: one curve for every centre with a width; 100 points from five widths below to
    five widths above the centre, of the light that a voxel of the value gives. *)
Theorem C92_options cmaps m centers widths ws cmap : cmaps cmap = Some m -> widths_given widths (length centers) ws ->
  exists cs, visualise_render_options cmaps centers widths cmap = Ok cs /\
    length cs = Nat.min (length centers) (length ws) /\
    forall k cv, nth_error cs k = Some cv ->
      exists c w, nth_error centers k = Some c /\ nth_error ws k = Some w /\ line_at cv = c /\
        line_colour cv = m (colour_place (length centers) k) /\ length (points cv) = 100%nat /\
        forall t x y, nth_error (points cv) t = Some (x, y) ->
          x = c + (INR t / 99 * 10 - 5) * w /\ (w <> 0 -> y = Some (gauss c w x)) /\ (w = 0 -> y = None).
Proof.
  intros Hm HWS. unfold visualise_render_options. rewrite Hm, (widths_given_list _ _ _ HWS).
  eexists. split; [reflexivity|]. split.
  { rewrite map_length, !combine_length, map_length, linspace_length. lia. }
  intros k cv Hk. rewrite nth_error_map in Hk. destruct (nth_error (combine _ _) k) as [[[c w] col]|] eqn:Ek; [|discriminate].
  cbn [option_map fst snd] in Hk. cbv zeta in Hk.
  apply (fun a b (E : @Some curve a = Some b) => match E in _ = o return a = match o with Some b => b | None => a end with eq_refl => eq_refl end) in Hk.
  subst cv. apply nth_error_combine in Ek. cbn [fst snd] in Ek. destruct Ek as [Ek Ec].
  apply nth_error_combine in Ek. cbn [fst snd] in Ek. destruct Ek as [E1 E2].
  exists c, w. split; [exact E1|]. split; [exact E2|]. cbn [line_at line_colour points]. split; [reflexivity|]. split.
  { rewrite nth_error_map in Ec. assert (Hk : (k < length centers)%nat) by (apply nth_error_Some; congruence).
    rewrite linspace_nth in Ec by exact Hk. cbn in Ec. injection Ec as <-. f_equal.
    unfold colour_place, Rdiv. rewrite Rplus_0_l, Rminus_0_r, Rmult_1_l. reflexivity. }
  split; [rewrite combine_length, map_length, linspace_length; reflexivity|].
  intros t x y Ht. apply nth_error_combine in Ht. cbn [fst snd] in Ht. destruct Ht as [Hx Hy].
  rewrite nth_error_map, Hx in Hy. cbn [option_map] in Hy. injection Hy as <-.
  assert (Ht : (t < 100)%nat) by (rewrite <- (linspace_length (c - 5 * w) (c + 5 * w) 100); apply nth_error_Some; congruence).
  rewrite linspace_nth in Hx by exact Ht. injection Hx as <-.
  change (100 - 1)%nat with 99%nat. replace (INR 99) with 99 by (cbn; lra). split; [field|].
  destruct (Req_EM_T w 0) as [->|N]; [split; [contradiction|reflexivity]|]. split; [|contradiction].
  intros _. unfold gauss. f_equal. f_equal. f_equal. field. exact N.
Qed.

(** The middle of the hundred points falls between two of them: no point is as high as the function. *)
Theorem C92_peak_missed cmaps m centers widths ws cmap cs k cv t x y c w :
  cmaps cmap = Some m -> widths_given widths (length centers) ws ->
  visualise_render_options cmaps centers widths cmap = Ok cs -> nth_error cs k = Some cv ->
  nth_error centers k = Some c -> nth_error ws k = Some w -> 0 < w ->
  nth_error (points cv) t = Some (x, Some y) -> y < gauss c w c.
Proof.
  intros Hm HWS E Hk Ec Ew Hw Ht. destruct (C92_options cmaps m centers widths ws cmap Hm HWS) as (cs' & E' & _ & H).
  rewrite E in E'. injection E' as <-. destruct (H k cv Hk) as (c' & w' & E1 & E2 & _ & _ & _ & P).
  rewrite Ec in E1. injection E1 as <-. rewrite Ew in E2. injection E2 as <-.
  destruct (P t x (Some y) Ht) as (X & Y & _). specialize (Y ltac:(lra)). injection Y as ->. apply gauss_top; [exact Hw|].
  intros Q. rewrite Q in X. assert (Z : INR t / 99 * 10 - 5 = 0).
  { apply Rmult_eq_reg_r with w; [|lra]. rewrite Rmult_0_l. lra. }
  assert (Z2 : 20 * INR t = 990) by lra. rewrite INR_IZR_INZ in Z2. rewrite <- mult_IZR in Z2. apply eq_IZR in Z2. lia.
Qed.

(** A grid of 2 x 2 x 1 voxels, a norm without limits shared by two centres: the second image is brighter than
    the first one, from which the limits are taken. *)
Definition demo : voxels := mkvox 2 2 1 (fun i j _ => if ((i =? 0) && (j =? 0))%nat then 0 else 10).
Definition white : R -> colour := fun _ _ => 1.
Lemma demo_light c w i j : columns_of demo i j ->
  light demo c w i j = gauss c w (if ((i =? 0) && (j =? 0))%nat then 0 else 10).
Proof. intros _. unfold light, column, sumR. cbn [demo vz seq map vat fold_right]. lra. Qed.

Theorem C92_shared_norm_refuted :
  ~ (forall cmaps m d centers widths cmap norm ims heap refs im i j ch, cmaps cmap = Some m ->
       visualise_render cmaps d centers widths cmap "all" norm = Ok (Some (Images ims), heap, refs) ->
       In im ims -> columns_of d i j -> (forall p c, 0 <= m p c <= 1) -> iat im i j ch <= 1).
Proof.
  intros H.
  destruct (C92_images (fun _ => Some white) white demo [3; 0] (WList [1; 1]) [1; 1] "" (NOne fresh) [fresh] [0%nat; 0%nat])
    as (ims & heap & E & L & P & _); try reflexivity.
  - cbn. lia.
  - repeat constructor; lra.
  - split; [reflexivity|]. split; [reflexivity|]. intros r [<-|[<-|[]]]; reflexivity.
  - repeat constructor.
  - repeat constructor.
  - destruct ims as [|im0 [|im [|]]]; cbn in L; try discriminate L.
    destruct (P 1%nat im eq_refl) as (c & w & clip & lo & hi & A1 & A2 & A3 & _ & _ & _ & A7).
    cbn in A1, A2. injection A1 as <-. injection A2 as <-.
    destruct A3 as (r & x & k0 & c0 & w0 & B1 & B2 & B3 & B4 & B6 & B7 & B8 & B9).
    cbn in B1. injection B1 as <-. cbn in B2. injection B2 as <-. cbn in B3. subst clip.
    assert (k0 = 0%nat) as -> by (apply (first_use_head 0 [0%nat] 1 k0); [reflexivity|exact B4]).
    cbn in B6, B7. injection B6 as <-. injection B7 as <-.
    destruct B8 as [B8|[_ [(i1 & j1 & C1 & D1) D2]]]; [discriminate|]. destruct B9 as [B9|[_ [(i2 & j2 & C2 & D3) D4]]]; [discriminate|].
    assert (Z : columns_of demo 0 0) by (split; cbn; lia).
    assert (O : columns_of demo 1 0) by (split; cbn; lia).
    assert (HI : hi < gauss 0 1 0).
    { rewrite <- D3, demo_light by exact C2. rewrite (gauss_centre 0 1) by lra. rewrite <- (gauss_centre 3 1) by lra.
      destruct ((i2 =? 0) && (j2 =? 0))%nat; apply gauss_top; lra. }
    assert (LO : lo < hi).
    { pose proof (D2 1%nat 0%nat O) as Q1. pose proof (D4 0%nat 0%nat Z) as Q2.
      rewrite demo_light in Q1, Q2 by assumption. cbn [Nat.eqb andb] in Q1, Q2.
      apply Rle_lt_trans with (gauss 3 1 10); [exact Q1|]. apply Rlt_le_trans with (gauss 3 1 0); [|exact Q2].
      unfold gauss. apply Rmult_lt_compat_r; [pose proof sqrt_2pi_pos; apply Rinv_0_lt_compat; lra|].
      apply exp_increasing. lra. }
    destruct (A7 0%nat 0%nat Z) as (x & S & Hx).
    assert (X : 1 < x).
    { destruct S as [[Q _]|(_ & u & Eu & [[_ ->]|[Q _]])]; [lra| |discriminate].
      rewrite (demo_light 0 1 0 0 Z) in Eu. cbn [Nat.eqb andb] in Eu. apply Rmult_lt_reg_r with (hi - lo); lra. }
    specialize (H (fun _ => Some white) white demo [3; 0] (WList [1; 1]) ""%string (NOne fresh) [im0; im] heap _ im 0%nat 0%nat 0%nat
      eq_refl E (or_intror (or_introl eq_refl)) Z).
    rewrite Hx in H. unfold white in H. specialize (H ltac:(intros; lra)). lra.
Qed.

(** Cases that meet the hypotheses. *)
Example C92_demo : exists g, render_voxels_to_array demo 3 1 = Ok g /\ at2 g 0%nat 0%nat = gauss 3 1 0 /\ at2 g 0%nat 1%nat = gauss 3 1 10.
Proof.
  destruct (C92_pixels demo 3 1 ltac:(lra) eq_refl) as (g & E & _ & _ & A). exists g. split; [exact E|].
  split; (rewrite A by (split; cbn; lia)); (rewrite demo_light by (split; cbn; lia)); reflexivity.
Qed.
Example C92_demo_oblong : render_voxels_to_array (mkvox 2 3 1 (fun _ _ _ => 1)) 0 1 = Err UndefinedRead.
Proof. apply C92_not_square; cbn; [lra|lia|lia|lia]. Qed.
Example C92_demo_short : exists ims heap refs,
  visualise_render (fun _ => Some white) demo [3; 0; 7] (WList [1; 2]) "" "all" NNone = Ok (Some (Images ims), heap, refs) /\ length ims = 2%nat.
Proof.
  destruct (C92_fresh (fun _ => Some white) white demo [3; 0; 7] (WList [1; 2]) [1; 2] "") as (ims & heap & refs & E & L & _);
    try reflexivity; [cbn; lia|repeat constructor; lra|]. exists ims, heap, refs. split; [exact E|exact L].
Qed.

Print Assumptions C92_pixels.
Print Assumptions C92_not_square.
Print Assumptions C92_zero_width.
Print Assumptions C92_bounds.
Print Assumptions C92_order.
Print Assumptions C92_images.
Print Assumptions C92_return_types.
Print Assumptions C92_failures.
Print Assumptions C92_fresh.
Print Assumptions C92_refused.
Print Assumptions C92_options.
Print Assumptions C92_peak_missed.
Print Assumptions C92_shared_norm_refuted.

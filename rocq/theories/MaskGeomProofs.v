(** Which cells a region selects. *)
From Coq Require Import List ZArith QArith Qabs Lqa Lia Bool.
From Verif Require Import Base BaseLemmas QTac MaskModel MaskSpec MaskListProofs.
Import ListNotations.
Open Scope Z_scope.

Lemma qltb_iff x y : qltb x y = true <-> (x < y)%Q.
Proof.
  unfold qltb. rewrite negb_true_iff. split.
  - intros H. apply Qnot_le_lt. intros C. apply Qle_bool_iff in C. congruence.
  - intros H. destruct (Qle_bool y x) eqn:E; [|reflexivity].
    apply Qle_bool_iff in E. exfalso. apply (Qlt_not_le _ _ H E).
Qed.

Lemma qltb_false x y : qltb x y = false <-> (y <= x)%Q.
Proof.
  unfold qltb. rewrite negb_false_iff. apply Qle_bool_iff.
Qed.

(** * The computed cell mask is pointwise *)

Definition axis_ok (box : vec) (restrict : axis -> Q * Q) (a : axis) (c : cell) : bool :=
  match axis_interval (box a) (fst (restrict a)) (snd (restrict a)) with
  | None => true
  | Some (lower, upper) => axis_selects (box a) lower upper (cell_min c a) (cell_max c a)
  end.

Definition cell_ok (box : vec) (restrict : axis -> Q * Q) (c : cell) : bool :=
  axis_ok box restrict AX c && axis_ok box restrict AY c && axis_ok box restrict AZ c.

Lemma cell_mask_axis_spec box restrict cells g a :
  cell_mask_axis box restrict cells (map g cells) a
  = map (fun c => g c && axis_ok box restrict a c) cells.
Proof.
  unfold cell_mask_axis, axis_ok.
  destruct (axis_interval _ _ _) as [[lo up]|].
  - rewrite masked_assign_map by now rewrite map_length.
    apply (map_combine_map g (fun c => axis_selects (box a) lo up (cell_min c a) (cell_max c a))).
  - apply map_ext. intros c. now rewrite andb_true_r.
Qed.

Lemma fold_axes_spec box restrict cells :
  fold_left (cell_mask_axis box restrict cells) axes (map (fun _ => true) cells)
  = map (cell_ok box restrict) cells.
Proof.
  unfold axes. cbn [fold_left].
  rewrite (cell_mask_axis_spec box restrict cells (fun _ => true) AX).
  rewrite (cell_mask_axis_spec box restrict cells (fun c => true && axis_ok box restrict AX c) AY).
  rewrite (cell_mask_axis_spec box restrict cells
             (fun c => true && axis_ok box restrict AX c && axis_ok box restrict AY c) AZ).
  apply map_ext. intros c. reflexivity.
Qed.

Lemma generate_cell_mask_ok mm restrict cm :
  generate_cell_mask mm restrict = Ok cm ->
  (forall a, out_of_window (mm_box mm a) (fst (restrict a)) (snd (restrict a)) = false) /\
  cm = map (fun k => map (cell_ok (mm_box mm) restrict) (key_cells k)) (mm_keys mm).
Proof.
  unfold generate_cell_mask. destruct (existsb _ axes) eqn:E; [discriminate|].
  intros [= <-]. split.
  - cbn in E. apply orb_false_iff in E as [E1 E]. apply orb_false_iff in E as [E2 E].
    apply orb_false_iff in E as [E3 _]. now intros [].
  - apply map_ext. intros k. apply fold_axes_spec.
Qed.

Lemma out_of_window_spec box lo up :
  out_of_window box lo up = false <->
  (- box / 2 <= lo /\ lo <= 3 * box / 2 /\ - box / 2 <= up /\ up <= 3 * box / 2)%Q.
Proof.
  unfold out_of_window. rewrite !orb_false_iff, !qltb_false. tauto.
Qed.

Lemma generate_cell_mask_cases mm restrict :
  generate_cell_mask mm restrict =
  if existsb (fun a => out_of_window (mm_box mm a) (fst (restrict a)) (snd (restrict a))) axes
  then Err ValueError
  else Ok (map (fun k => map (cell_ok (mm_box mm) restrict) (key_cells k)) (mm_keys mm)).
Proof.
  destruct (generate_cell_mask mm restrict) as [cm|e] eqn:E.
  - pose proof (generate_cell_mask_ok _ _ _ E) as [H ->].
    unfold axes. cbn [existsb]. now rewrite !H.
  - unfold generate_cell_mask in E. destruct (existsb _ axes); [|discriminate]. now injection E as <-.
Qed.

(** * One axis *)

Lemma inject_Z_cases j box : (0 < box)%Q ->
  (-2 * box < inject_Z j * box)%Q -> (inject_Z j * box < 2 * box)%Q -> j = -1 \/ j = 0 \/ j = 1.
Proof.
  intros Hb H1 H2.
  assert (-2 < j).
  { apply Z.nle_gt. intros C. rewrite Zle_Qle in C. change (inject_Z (-2)) with (-2)%Q in C. nra. }
  assert (j < 2).
  { apply Z.nle_gt. intros C. rewrite Zle_Qle in C. change (inject_Z 2) with (2)%Q in C. nra. }
  lia.
Qed.

(** With everything in [-box/2, 3box/2] three copies are enough. *)
Lemma axis_selects_iff box lo up cmin cmax :
  (0 < box)%Q -> (- box / 2 <= lo)%Q -> (up <= 3 * box / 2)%Q ->
  (- box / 2 <= cmin)%Q -> (cmax <= 3 * box / 2)%Q ->
  axis_selects box lo up cmin cmax = true <->
  (exists j : Z, lo < cmax + inject_Z j * box /\ cmin + inject_Z j * box < up)%Q.
Proof.
  intros Hb Hlo Hup Hmin Hmax. unfold axis_selects. rewrite existsb_exists. split.
  - intros (j & _ & H). apply andb_true_iff in H as [H1 H2].
    rewrite qltb_iff in H1, H2. now exists j.
  - intros (j & H1 & H2). exists j. split.
    + assert (j = -1 \/ j = 0 \/ j = 1); [|cbn; intuition].
      apply (inject_Z_cases j box Hb).
      * qlra.
      * qlra.
    + apply andb_true_iff. rewrite !qltb_iff. now split.
Qed.

Lemma wrap_upper_cases box lo up :
  (up < lo /\ wrap_upper box lo up = (up + box)%Q \/ lo <= up /\ wrap_upper box lo up = up)%Q.
Proof. unfold wrap_upper. destruct (Qlt_le_dec up lo); [left|right]; split; auto. Qed.

(** Shifting an interval by the box does not change what it touches. *)
Lemma touch_shift box lo up cmin cmax :
  ((exists j : Z, lo - box < cmax + inject_Z j * box /\ cmin + inject_Z j * box < up) <->
   (exists j : Z, lo < cmax + inject_Z j * box /\ cmin + inject_Z j * box < up + box))%Q.
Proof.
  split; intros (j & H1 & H2).
  - exists (j + 1). rewrite inject_Z_plus. change (inject_Z 1) with 1%Q. split; qlra.
  - exists (j - 1). unfold Z.sub. rewrite inject_Z_plus. change (inject_Z (-(1))) with (-1)%Q.
    split; qlra.
Qed.

Lemma axis_interval_spec box lo up cmin cmax :
  (0 < box)%Q ->
  (- box / 2 <= lo /\ lo <= 3 * box / 2 /\ - box / 2 <= up /\ up <= 3 * box / 2)%Q ->
  (- box / 2 <= cmin)%Q -> (cmax <= 3 * box / 2)%Q ->
  match axis_interval box lo up with
  | None => true
  | Some (l, u) => axis_selects box l u cmin cmax
  end = true <->
  ((box < Qabs (up - lo))%Q \/ interval_touches box lo up cmin cmax).
Proof.
  intros Hb (H1 & H2 & H3 & H4) Hmin Hmax. unfold axis_interval, interval_touches.
  destruct (qltb box (Qabs (up - lo))) eqn:EL.
  - apply qltb_iff in EL. split; auto.
  - assert (NL : ~ (box < Qabs (up - lo))%Q).
    { apply qltb_false in EL. intros C. apply (Qlt_not_le _ _ C EL). }
    destruct (wrap_upper_cases box lo up) as [[Hw ->]|[Hw ->]].
    + replace (qltb up lo) with true by (symmetry; now apply qltb_iff).
      destruct (qltb (box / 2) lo) eqn:E1.
      * apply qltb_iff in E1. rewrite axis_selects_iff by qlra.
        rewrite touch_shift. tauto.
      * apply qltb_false in E1. replace (qltb up (box / 2)) with true
          by (symmetry; apply qltb_iff; qlra).
        rewrite axis_selects_iff by qlra. tauto.
    + replace (qltb up lo) with false by (symmetry; now apply qltb_false).
      rewrite axis_selects_iff by assumption. tauto.
Qed.

(** The full box (a [None] axis) selects every cell. *)
Lemma full_axis_selects box cmin cmax :
  (0 < box)%Q -> (- box / 2 <= cmin)%Q -> (cmin < cmax)%Q -> (cmax <= 3 * box / 2)%Q ->
  interval_touches box 0 box cmin cmax.
Proof.
  intros Hb Hmin Hlt Hmax. unfold interval_touches.
  destruct (wrap_upper_cases box 0 box) as [[Hw _]|[_ ->]]; [qlra|].
  destruct (Qlt_le_dec 0 cmax) as [Hc|Hc].
  - destruct (Qlt_le_dec cmin box) as [Hd|Hd].
    + exists 0. change (inject_Z 0) with 0%Q. split; qlra.
    + exists (-1). change (inject_Z (-1)) with (-1)%Q. split; qlra.
  - exists 1. change (inject_Z 1) with 1%Q. split; qlra.
Qed.

(** A point in the region and in the extent of the cell makes them touch. *)
Lemma inside_touches box lo up cmin cmax x :
  inside_interval box lo up x ->
  (exists j : Z, cmin <= x + inject_Z j * box <= cmax)%Q ->
  interval_touches box lo up cmin cmax.
Proof.
  intros (j & H1 & H2) (k & H3 & H4). exists (j - k). unfold Z.sub.
  rewrite inject_Z_plus, inject_Z_opp. split; qlra.
Qed.

(** For intervals of positive length touching is overlapping: a common interior point. *)
Lemma touches_overlap box lo up cmin cmax :
  (lo < wrap_upper box lo up)%Q -> (cmin < cmax)%Q ->
  interval_touches box lo up cmin cmax <->
  (exists x, cmin < x /\ x < cmax /\ inside_interval box lo up x)%Q.
Proof.
  intros Hr Hc. unfold interval_touches, inside_interval. set (u := wrap_upper box lo up) in *.
  split.
  - intros (j & H1 & H2). set (s := (inject_Z j * box)%Q) in *.
    (* midpoint of max(lo, cmin+s) and min(u, cmax+s) *)
    assert (exists y, lo < y /\ y < u /\ cmin + s < y /\ y < cmax + s)%Q as (y & Y).
    { destruct (Qlt_le_dec lo (cmin + s)) as [A|A]; destruct (Qlt_le_dec u (cmax + s)) as [B|B].
      - exists ((cmin + s + u) / 2)%Q. qlra.
      - exists ((cmin + s + (cmax + s)) / 2)%Q. qlra.
      - exists ((lo + u) / 2)%Q. qlra.
      - exists ((lo + (cmax + s)) / 2)%Q. qlra. }
    exists (y - s)%Q. repeat split; try qlra. exists j. fold s. split; qlra.
  - intros (x & H1 & H2 & j & H3 & H4). exists j. split; qlra.
Qed.

(** * Regions *)

Lemma sanitize_region_ok box region restrict :
  sanitize_region box region = Ok restrict ->
  exists rx ry rz, region = [rx; ry; rz] /\
    sanitize_axis (box AX) rx = Some (restrict AX) /\
    sanitize_axis (box AY) ry = Some (restrict AY) /\
    sanitize_axis (box AZ) rz = Some (restrict AZ).
Proof.
  unfold sanitize_region.
  destruct region as [|rx [|ry [|rz [|? ?]]]]; try discriminate.
  destruct (sanitize_axis (box AX) rx) eqn:E1; try discriminate.
  destruct (sanitize_axis (box AY) ry) eqn:E2; try discriminate.
  destruct (sanitize_axis (box AZ) rz) eqn:E3; try discriminate.
  intros [= <-]. exists rx, ry, rz. auto.
Qed.

Lemma sanitize_axis_wf box r :
  (exists p, sanitize_axis box r = Some p) <->
  match r with None => True | Some l => length l = 2%nat end.
Proof.
  destruct r as [[|a [|b [|? ?]]]|]; cbn; split; intros H; try discriminate; try destruct H; eauto;
    discriminate.
Qed.

Lemma sanitize_region_wf box region :
  (exists restrict, sanitize_region box region = Ok restrict) <-> well_formed_region region.
Proof.
  unfold well_formed_region, sanitize_region. split.
  - intros (restrict & H). apply sanitize_region_ok in H as (rx & ry & rz & -> & H1 & H2 & H3).
    split; [reflexivity|]. intros r [<-|[<-|[<-|[]]]]; eapply sanitize_axis_wf; eauto.
  - intros [Hl H]. destruct region as [|rx [|ry [|rz [|? ?]]]]; try discriminate.
    destruct (proj2 (sanitize_axis_wf (box AX) rx)) as [p1 ->]; [apply H; cbn; auto|].
    destruct (proj2 (sanitize_axis_wf (box AY) ry)) as [p2 ->]; [apply H; cbn; auto|].
    destruct (proj2 (sanitize_axis_wf (box AZ) rz)) as [p3 ->]; [apply H; cbn; auto|].
    eauto.
Qed.

Lemma sanitize_region_err box region e :
  sanitize_region box region = Err e -> e = ValueError.
Proof.
  unfold sanitize_region. destruct region as [|rx [|ry [|rz [|? ?]]]]; try congruence.
  destruct (sanitize_axis (box AX) rx), (sanitize_axis (box AY) ry), (sanitize_axis (box AZ) rz);
    congruence.
Qed.

Lemma axis_window_iff box r p : (0 < box)%Q ->
  sanitize_axis box r = Some p ->
  out_of_window box (fst p) (snd p) = false <-> axis_in_window box r.
Proof.
  intros Hb H. rewrite out_of_window_spec.
  destruct r as [[|lo [|up [|? ?]]]|]; cbn in H; try discriminate; injection H as <-; cbn.
  - split.
    + intros (H1 & H2 & H3 & H4). repeat constructor; assumption.
    + intros H. inversion H as [|? ? [? ?] H']; inversion H' as [|? ? [? ?] ?]; subst. tauto.
  - split; [auto|]. intros _. repeat split; qlra.
Qed.

Lemma region_window_iff mm region restrict :
  (forall a, (0 < mm_box mm a)%Q) ->
  sanitize_region (mm_box mm) region = Ok restrict ->
  existsb (fun a => out_of_window (mm_box mm a) (fst (restrict a)) (snd (restrict a))) axes = false
  <-> region_in_window (mm_box mm) region.
Proof.
  intros Hb H. apply sanitize_region_ok in H as (rx & ry & rz & -> & H1 & H2 & H3).
  unfold axes. cbn [existsb region_in_window]. rewrite !orb_false_iff.
  rewrite (axis_window_iff _ _ _ (Hb AX) H1), (axis_window_iff _ _ _ (Hb AY) H2),
    (axis_window_iff _ _ _ (Hb AZ) H3). tauto.
Qed.

Lemma axis_ok_iff mm restrict a c r :
  (0 < mm_box mm a)%Q ->
  sanitize_axis (mm_box mm a) r = Some (restrict a) ->
  axis_in_window (mm_box mm a) r ->
  extent_ok (mm_box mm) c ->
  axis_ok (mm_box mm) restrict a c = true <->
  axis_touches (mm_box mm a) r (cell_min c a) (cell_max c a).
Proof.
  intros Hb H Hw Hc. specialize (Hc a) as (C1 & C2 & C3).
  pose proof (proj2 (axis_window_iff _ _ _ Hb H) Hw) as HW. rewrite out_of_window_spec in HW.
  unfold axis_ok. rewrite axis_interval_spec by assumption.
  destruct r as [[|lo [|up [|? ?]]]|]; cbn in H; try discriminate; injection H as <-; cbn.
  - reflexivity.
  - split; [auto|]. intros _. right. now apply full_axis_selects.
Qed.

Lemma cell_ok_iff mm region restrict c :
  (forall a, (0 < mm_box mm a)%Q) ->
  sanitize_region (mm_box mm) region = Ok restrict ->
  region_in_window (mm_box mm) region ->
  extent_ok (mm_box mm) c ->
  cell_ok (mm_box mm) restrict c = true <-> region_touches (mm_box mm) region c.
Proof.
  intros Hb H Hw Hc. apply sanitize_region_ok in H as (rx & ry & rz & -> & H1 & H2 & H3).
  cbn in Hw. destruct Hw as (W1 & W2 & W3). unfold cell_ok. rewrite !andb_true_iff.
  rewrite (axis_ok_iff mm restrict AX c rx), (axis_ok_iff mm restrict AY c ry),
    (axis_ok_iff mm restrict AZ c rz) by auto.
  cbn. tauto.
Qed.

Lemma inside_region_touches box region c p :
  inside_region box region p -> in_cell_extent box c p -> region_touches box region c.
Proof.
  intros Hr Hc. destruct region as [|rx [|ry [|rz [|? ?]]]]; cbn in *; try tauto.
  assert (A : forall a r, inside_axis (box a) r (p a) ->
                          axis_touches (box a) r (cell_min c a) (cell_max c a)).
  { intros a r H. destruct r as [[|lo [|up [|? ?]]]|]; cbn in *; try tauto.
    right. now apply (inside_touches _ _ _ _ _ (p a)). }
  destruct Hr as (H1 & H2 & H3). auto.
Qed.

(** Values of the pixels of the slice, volume, histogram and renormalised backends. *)
From Coq Require Import List ZArith Reals Bool Lia Lra Psatz Permutation.
From Verif Require Import Base BaseLemmas VisModel VisSpec VisSumProofs VisProofs.
Import ListNotations.
Open Scope R_scope.

(** * Slices and volumes *)

Lemma kernel3_far : forall w dx dy dz, 0 < w -> apart w dx \/ apart w dy \/ apart w dz ->
  kernel3 (sqrt (dx * dx + dy * dy + dz * dz)) w = 0.
Proof.
  intros w dx dy dz Hw H. apply kernel3_zero; auto. apply sqrt_ge; [lra|].
  pose proof (square_pos dx). pose proof (square_pos dy). pose proof (square_pos dz).
  destruct H as [H|[H|H]]; apply apart_square in H; lra.
Qed.

Lemma in_top_window : forall n w x i, (1 <= n)%Z -> 0 <= w ->
  let c := floor (IZR n * x) in let s := trunc (1 + w * IZR n) in
  within (c - s) (c + s) i = within (c - s) (c + s + 1) i && negb (above n w x i).
Proof.
  intros n w x i Hn Hw c s. unfold above, within. pose proof (n_pos n Hn). fold c.
  assert (E : floor (1 + w * IZR n) = s). { unfold s. rewrite trunc_floor; auto. nra. }
  rewrite E. destruct (Z.leb_spec (c - s) i), (Z.ltb_spec i (c + s)), (Z.ltb_spec i (c + s + 1)), (Z.eqb_spec i (c + s));
    cbn; auto; lia.
Qed.

Definition slice_value (n : Z) (zs m w x y z : R) (i j : Z) : R :=
  if above n w x i || above n w y j then 0
  else m * kernel3 (dist3 (centre n i) (centre n j) zs x y z) w.

Lemma dist3_offset : forall n i j zs x y z, (1 <= n)%Z ->
  dist3 (centre n i) (centre n j) zs x y z
  = sqrt (offset n i x * offset n i x + offset n j y * offset n j y + (z - zs) * (z - zs)).
Proof.
  intros n i j zs x y z Hn. unfold dist3. rewrite <- !offset_centre by auto. f_equal.
  replace ((zs - z) * (zs - z)) with ((z - zs) * (z - zs)) by ring. reflexivity.
Qed.

Lemma value_nil : forall c, value_at c [] = 0.
Proof. reflexivity. Qed.

Lemma slice_at_value : forall n zs m h x y z i j, (1 <= n)%Z -> 0 < h -> (0 <= i < n)%Z -> (0 <= j < n)%Z ->
  value_at [i; j] (slice_at n zs m h x y z) = slice_value n zs m (gamma3 * h) x y z i j.
Proof.
  intros n zs m h x y z i j Hn Hh Hi Hj. unfold slice_at, slice_value.
  set (w := gamma3 * h). assert (Hw : 0 < w) by (unfold w; pose proof gamma3_pos; nra).
  assert (Hw0 : 0 <= w) by lra.
  pose proof (in_top_window n w x i Hn Hw0) as Tx. pose proof (in_top_window n w y j Hn Hw0) as Ty. cbv zeta in Tx, Ty.
  destruct (spanned w n Hn Hw0) as (S1 & S2). set (s := trunc (1 + w * IZR n)) in *.
  set (cx := floor (IZR n * x)) in *. set (cy := floor (IZR n * y)) in *.
  rewrite dist3_offset by auto.
  assert (K : forall dz : R, (~ (cx - s <= i < cx + s + 1)%Z \/ ~ (cy - s <= j < cy + s + 1)%Z) ->
     kernel3 (sqrt (offset n i x * offset n i x + offset n j y * offset n j y + dz * dz)) w = 0).
  { intros dz [O|O]; apply kernel3_far; auto.
    - left. eapply out_window; [auto|exact (proj2 S2)|exact O].
    - right. left. eapply out_window; [auto|exact (proj2 S2)|exact O]. }
  destruct (Rlt_dec (w * w) ((z - zs) * (z - zs))) as [L|L]; cbn [orb].
  - rewrite value_nil. destruct (above n w x i || above n w y j); [reflexivity|].
    rewrite kernel3_zero; [lra|auto|]. apply sqrt_ge; [lra|].
    pose proof (square_pos (offset n i x)). pose proof (square_pos (offset n j y)). lra.
  - destruct (misses n cx s || misses n cy s) eqn:M.
    + rewrite value_nil. destruct (above n w x i || above n w y j); [reflexivity|].
      rewrite K; [lra|]. apply orb_true_iff in M. destruct M as [M|M]; [left|right]; eapply misses_out; eauto.
    + unfold window. rewrite value_spread2, !in_window, Tx, Ty by auto.
      destruct (within (cx - s) (cx + s + 1) i) eqn:Wi; cbn [andb].
      2: { apply within_false in Wi. rewrite K by auto. destruct (above n w x i || above n w y j); lra. }
      destruct (within (cy - s) (cy + s + 1) j) eqn:Wj; cbn [andb].
      2: { apply within_false in Wj. rewrite K by auto. rewrite andb_false_r. destruct (above n w x i || above n w y j); lra. }
      destruct (above n w x i), (above n w y j); cbn; reflexivity.
Qed.

Lemma slice_at_ok : forall n zs m h x y z, ok_writes (square n) (slice_at n zs m h x y z).
Proof.
  intros. unfold slice_at. destruct (_ || misses _ _ _ || misses _ _ _); [constructor|apply ok_spread2].
Qed.

Lemma slice_value_left : forall n zs m h bx by_ bz x y z a b c u v t i j, (1 <= n)%Z -> 0 < h ->
  (0 <= i < n)%Z -> (0 <= j < n)%Z ->
  0 <= bx -> 0 <= by_ -> 0 <= bz -> wrapped bx x -> wrapped by_ y -> wrapped bz z ->
  fits bx (gamma3 * h) -> fits by_ (gamma3 * h) -> fits bz (gamma3 * h) ->
  bz = 0 \/ (0 <= zs /\ (zs <= 1 \/ zs < bz)) ->
  (left_out bx a /\ u = x + IZR a * bx) \/ (left_out by_ b /\ v = y + IZR b * by_) \/
  (left_out bz c /\ t = z + IZR c * bz) ->
  slice_value n zs m (gamma3 * h) u v t i j = 0.
Proof.
  intros n zs m h bx by_ bz x y z a b c u v t i j Hn Hh Hi Hj Bx By Bz Wx Wy Wz Fx Fy Fz Z0 L.
  unfold slice_value. destruct (above _ _ u i || above _ _ v j); [reflexivity|].
  assert (Hw : 0 < gamma3 * h) by (pose proof gamma3_pos; nra).
  pose proof (centre_bounds n i Hi). pose proof (centre_bounds n j Hj).
  unfold dist3. rewrite kernel3_far; auto; [lra|].
  destruct L as [(L & ->)|[(L & ->)|(L & ->)]]; [left|right;left|right;right]; apply left_out_far; auto; try lra;
    destruct L; destruct Z0 as [Z0|Z0]; [contradiction|lra|contradiction|lra].
Qed.

Definition voxel_value (n nz : Z) (m w x y z : R) (i j k : Z) : R :=
  if Rlt_dec (w * IZR n) (/ 2) then
    (if in_pixelb n i x && in_pixelb n j y && in_pixelb nz k z then m * (IZR n * IZR n * IZR nz) else 0)
  else if Rlt_dec (w * IZR nz) (/ 2) then
    (if in_pixelb n i x && in_pixelb n j y && in_pixelb nz k z then m * (IZR n * IZR n * IZR nz) else 0)
  else if above n w x i || above n w y j || above nz w z k then 0
  else m * kernel3 (dist3 (centre n i) (centre n j) (centre nz k) x y z) w.

Lemma half_pixel : forall n w, (1 <= n)%Z -> (w < 1 / IZR n * / 2 <-> w * IZR n < / 2).
Proof.
  intros n w Hn. apply n_pos in Hn. assert (E : 1 / IZR n * IZR n = 1) by (field; lra).
  assert (0 < 1 / IZR n) by (apply Rdiv_lt_0_compat; lra).
  split; intro H0; [nra|]. apply (Rmult_lt_reg_r (IZR n)); [lra|].
  replace (1 / IZR n * / 2 * IZR n) with (/ 2) by (field; lra). lra.
Qed.

Lemma pixel_not_missed : forall n x w, (1 <= n)%Z -> 0 <= w ->
  (0 <= floor (IZR n * x) < n)%Z -> misses n (floor (IZR n * x)) (trunc (1 + w * IZR n)) = false.
Proof.
  intros n x w Hn Hw H. destruct (spanned w n Hn Hw) as (S & _).
  destruct (misses _ _ _) eqn:M; auto. exfalso.
  apply (misses_out _ _ _ (floor (IZR n * x)) M); lia.
Qed.

Lemma inside_iff : forall n c, inside n c = true <-> (0 <= c < n)%Z.
Proof. intros n c. unfold inside. rewrite andb_true_iff, !Z.leb_le. lia. Qed.

Lemma voxel_at_value : forall n nz m h x y z i j k, (1 <= n)%Z -> (1 <= nz)%Z -> 0 <= h ->
  (0 <= i < n)%Z -> (0 <= j < n)%Z -> (0 <= k < nz)%Z ->
  value_at [i; j; k] (voxel_at nz n m h x y z) = voxel_value n nz m (gamma3 * h) x y z i j k.
Proof.
  intros n nz m h x y z i j k Hn Hnz Hh Hi Hj Hk. unfold voxel_at, voxel_value.
  set (w := gamma3 * h). assert (Hw0 : 0 <= w) by (unfold w; pose proof gamma3_pos; nra).
  pose proof (in_top_window n w x i Hn Hw0) as Tx. pose proof (in_top_window n w y j Hn Hw0) as Ty.
  pose proof (in_top_window nz w z k Hnz Hw0) as Tz. cbv zeta in Tx, Ty, Tz.
  pose proof (pixel_not_missed n x w Hn Hw0) as Px. pose proof (pixel_not_missed n y w Hn Hw0) as Py.
  pose proof (pixel_not_missed nz z w Hnz Hw0) as Pz.
  destruct (spanned w n Hn Hw0) as (S1 & S2). destruct (spanned w nz Hnz Hw0) as (S1z & S2z).
  set (s := trunc (1 + w * IZR n)) in *. set (sz := trunc (1 + w * IZR nz)) in *.
  rewrite !in_pixelb_floor.
  set (cx := floor (IZR n * x)) in *. set (cy := floor (IZR n * y)) in *. set (cz := floor (IZR nz * z)) in *.
  set (V := m * (IZR n * IZR n * IZR nz)).
  assert (Small : value_at [i; j; k]
      (if misses n cx s || misses n cy s || misses nz cz sz then []
       else if inside n cx && inside n cy && inside nz cz then [([cx; cy; cz], V)] else [])
      = if (cx =? i)%Z && (cy =? j)%Z && (cz =? k)%Z then V else 0).
  { destruct ((cx =? i)%Z && (cy =? j)%Z && (cz =? k)%Z) eqn:E.
    - rewrite !andb_true_iff, !Z.eqb_eq in E. destruct E as ((<- & <-) & <-).
      rewrite Px, Py, Pz by auto. cbn [orb].
      rewrite (proj2 (inside_iff n cx)), (proj2 (inside_iff n cy)), (proj2 (inside_iff nz cz)) by auto. cbn [andb].
      rewrite value_at_one, cell_eqb_refl. reflexivity.
    - destruct (misses n cx s || misses n cy s || misses nz cz sz); [reflexivity|].
      destruct (inside n cx && inside n cy && inside nz cz); [|reflexivity].
      rewrite value_at_one, cell3_eqb, E. reflexivity. }
  destruct (Rlt_dec w (1 / IZR n * / 2)) as [A|A].
  { apply half_pixel in A; auto. destruct (Rlt_dec (w * IZR n) (/ 2)); [|contradiction]. exact Small. }
  destruct (Rlt_dec (w * IZR n) (/ 2)) as [A'|A']; [apply half_pixel in A'; auto; contradiction|].
  destruct (Rlt_dec w (1 / IZR nz * / 2)) as [B|B].
  { apply half_pixel in B; auto. destruct (Rlt_dec (w * IZR nz) (/ 2)); [|contradiction]. exact Small. }
  destruct (Rlt_dec (w * IZR nz) (/ 2)) as [B'|B']; [apply half_pixel in B'; auto; contradiction|].
  cbn [orb]. clear Small.
  assert (Hw : 0 < w). { pose proof (n_pos n Hn). nra. }
  assert (K : (~ (cx - s <= i < cx + s + 1)%Z \/ ~ (cy - s <= j < cy + s + 1)%Z \/ ~ (cz - sz <= k < cz + sz + 1)%Z) ->
     kernel3 (dist3 (centre n i) (centre n j) (centre nz k) x y z) w = 0).
  { intro O. unfold dist3. rewrite <- !offset_centre by auto. apply kernel3_far; auto.
    destruct O as [O|[O|O]]; [left|right;left|right;right]; eapply out_window; eauto; apply S2 || apply S2z. }
  assert (Z0 : forall b : bool, value_at [i; j; k] [] = (if b then 0 else m * 0)).
  { intro b. rewrite value_nil. destruct b; lra. }
  destruct (misses n cx s || misses n cy s || misses nz cz sz) eqn:M.
  - rewrite K; [apply Z0|]. rewrite !orb_true_iff in M.
    destruct M as [[M|M]|M]; [left|right;left|right;right]; eapply misses_out; eauto.
  - unfold window. rewrite value_spread3, !in_window, Tx, Ty, Tz by auto.
    destruct (within (cx - s) (cx + s + 1) i) eqn:Wi; cbn [andb].
    2: { apply within_false in Wi. rewrite K by auto. apply Z0. }
    destruct (within (cy - s) (cy + s + 1) j) eqn:Wj; cbn [andb].
    2: { apply within_false in Wj. rewrite K by auto. rewrite andb_false_r. apply Z0. }
    destruct (within (cz - sz) (cz + sz + 1) k) eqn:Wk; cbn [andb].
    2: { apply within_false in Wk. rewrite K by auto. rewrite !andb_false_r. apply Z0. }
    destruct (above n w x i), (above n w y j), (above nz w z k); cbn; auto.
    unfold dist3. rewrite <- !offset_centre by auto. reflexivity.
Qed.

Lemma voxel_at_ok : forall n nz m h x y z, ok_writes [n; n; nz] (voxel_at nz n m h x y z).
Proof.
  intros. unfold voxel_at. destruct (_ || _ || _); [constructor|].
  destruct (_ || _); [|apply ok_spread3].
  destruct (inside n (floor (IZR n * x)) && inside n (floor (IZR n * y)) && inside nz (floor (IZR nz * z))) eqn:I; [|constructor].
  apply ok_one. rewrite !andb_true_iff, !inside_iff in I.
  cbn [in_bounds]. rewrite !andb_true_iff, !Z.leb_le, !Z.ltb_lt. repeat split; lia.
Qed.

Lemma voxel_value_left : forall n m h bx by_ bz x y z a b c u v t i j k, (1 <= n)%Z -> 0 <= h ->
  (0 <= i < n)%Z -> (0 <= j < n)%Z -> (0 <= k < n)%Z ->
  0 <= bx -> 0 <= by_ -> 0 <= bz -> wrapped bx x -> wrapped by_ y -> wrapped bz z ->
  fits bx (gamma3 * h) -> fits by_ (gamma3 * h) -> fits bz (gamma3 * h) ->
  (left_out bx a /\ u = x + IZR a * bx) \/ (left_out by_ b /\ v = y + IZR b * by_) \/
  (left_out bz c /\ t = z + IZR c * bz) ->
  voxel_value n n m (gamma3 * h) u v t i j k = 0.
Proof.
  intros n m h bx by_ bz x y z a b c u v t i j k Hn Hh Hi Hj Hk Bx By Bz Wx Wy Wz Fx Fy Fz L.
  unfold voxel_value.
  assert (P : in_pixelb n i u && in_pixelb n j v && in_pixelb n k t = false).
  { destruct L as [(L & ->)|[(L & ->)|(L & ->)]]; rewrite left_out_pixel by auto; rewrite ?andb_false_r; reflexivity. }
  rewrite P. destruct (Rlt_dec _ _) as [A|A]; [reflexivity|].
  destruct (above _ _ u i || above _ _ v j || above _ _ t k); [reflexivity|].
  assert (Hw : 0 < gamma3 * h). { pose proof (n_pos n Hn). pose proof gamma3_pos. nra. }
  pose proof (centre_bounds n i Hi). pose proof (centre_bounds n j Hj). pose proof (centre_bounds n k Hk).
  unfold dist3. rewrite kernel3_far; auto; [lra|].
  destruct L as [(L & ->)|[(L & ->)|(L & ->)]]; [left|right;left|right;right]; apply left_out_far; auto; lra.
Qed.

(** * Histogram *)

Lemma histogram_at_spec : forall n m x y,
  histogram_at n m x y = (let cx := floor (IZR n * x) in let cy := floor (IZR n * y) in
    if inside n cx && inside n cy then [([cx; cy], m * (IZR n * IZR n))] else []).
Proof.
  intros n m x y. unfold histogram_at. cbv zeta.
  set (cx := floor (IZR n * x)). set (cy := floor (IZR n * y)). unfold inside.
  destruct (Z.ltb_spec cx 0), (Z.ltb_spec (n - 1) cx), (Z.ltb_spec cy 0), (Z.ltb_spec (n - 1) cy),
    (Z.leb_spec 0 cx), (Z.leb_spec cx (n - 1)), (Z.leb_spec 0 cy), (Z.leb_spec cy (n - 1)); cbn; auto; lia.
Qed.

Lemma histogram_at_ok : forall n m x y, ok_writes (square n) (histogram_at n m x y).
Proof.
  intros. rewrite histogram_at_spec. cbv zeta.
  destruct (inside n (floor (IZR n * x)) && inside n (floor (IZR n * y))) eqn:I; [|constructor].
  apply ok_one. rewrite !andb_true_iff, !inside_iff in I. unfold square.
  cbn [in_bounds]. rewrite !andb_true_iff, !Z.leb_le, !Z.ltb_lt. repeat split; lia.
Qed.

Lemma inside_unit : forall n x, (1 <= n)%Z -> inside n (floor (IZR n * x)) = unitb x.
Proof.
  intros n x Hn. pose proof (n_pos n Hn) as Np. pose proof (floor_spec (IZR n * x)) as F. unfold unitb.
  destruct (Rle_dec 0 x) as [L|L]; [destruct (Rlt_dec x 1) as [L'|L']|].
  - apply inside_iff. split; [apply floor_le; nra|apply floor_lt; nra].
  - destruct (inside _ _) eqn:I; auto. apply inside_iff in I. destruct I as (_ & I). apply IZR_succ_le in I. nra.
  - destruct (inside _ _) eqn:I; auto. apply inside_iff in I. destruct I as (I & _). apply IZR_le in I. nra.
Qed.

Lemma histogram_at_total : forall n m x y, (1 <= n)%Z ->
  sumR (map snd (histogram_at n m x y)) = if unitb x && unitb y then m * (IZR n * IZR n) else 0.
Proof.
  intros n m x y Hn. rewrite histogram_at_spec. cbv zeta. rewrite !inside_unit by auto.
  destruct (unitb x && unitb y); cbn [map snd]; rewrite ?sumR_cons, ?sumR_nil; lra.
Qed.

Lemma sumR_map_flat_map : forall A (f : A -> list write) l,
  sumR (map snd (flat_map f l)) = sumR (map (fun a => sumR (map snd (f a))) l).
Proof.
  intros A f l. induction l as [|x t IH]; [reflexivity|]. cbn [flat_map map]. rewrite map_app, sumR_app, sumR_cons. unfold write in *. rewrite IH.
  reflexivity.
Qed.

Lemma left_out_unit : forall box x a, 0 <= box -> wrapped box x -> left_out box a -> unitb (x + IZR a * box) = false.
Proof.
  intros box x a Hb Hx Ho. rewrite <- (inside_unit 1) by lia. rewrite Rmult_1_l.
  destruct (inside _ _) eqn:I; auto. exfalso. apply inside_iff in I.
  assert (E : in_pixelb 1 (floor (x + IZR a * box)) (x + IZR a * box) = false) by (apply left_out_pixel; auto).
  rewrite in_pixelb_floor, Rmult_1_l, Z.eqb_refl in E. discriminate.
Qed.

(** With a box of the size of the image exactly one copy is inside. *)
Lemma unit_once : forall x a, 0 <= x < 1 -> unitb (x + IZR a * 1) = (a =? 0)%Z.
Proof.
  intros x a Hx. unfold unitb. destruct (Z.eqb_spec a 0) as [->|N].
  - destruct (Rle_dec 0 (x + 0 * 1)); [|lra]. destruct (Rlt_dec (x + 0 * 1) 1); [reflexivity|lra].
  - assert (D : (a <= -1 \/ 1 <= a)%Z) by lia.
    destruct (Rle_dec 0 (x + IZR a * 1)); [|reflexivity]. destruct (Rlt_dec (x + IZR a * 1) 1); [|reflexivity].
    destruct D as [D|D]; apply IZR_le in D; lra.
Qed.

(** * Renormalised *)

Lemma renormalised_at_ok : forall n m h x y, ok_writes (square n) (renormalised_at n m h x y).
Proof.
  intros n m h x y. unfold renormalised_at. destruct (misses _ _ _ || misses _ _ _); [constructor|].
  destruct (_ <=? 1)%Z; [|apply ok_spread2].
  destruct (inside n (floor (IZR n * x)) && inside n (floor (IZR n * y))) eqn:I; [|constructor].
  apply ok_one. unfold inside in I. rewrite !andb_true_iff, !Z.leb_le in I.
  cbn [in_bounds square]. rewrite !andb_true_iff, !Z.leb_le, !Z.ltb_lt. repeat split; lia.
Qed.

Definition kweights (n : Z) (w x y : R) (r : Z) : R :=
  let cx := floor (IZR n * x) in let cy := floor (IZR n * y) in
  sumR (map (fun i => sumR (map (fun j => kernel2 (dist2 (centre n i) (centre n j) x y) w)
                                (zrange (cy - r) (cy + r + 1)))) (zrange (cx - r) (cx + r + 1))).

Lemma kernel_at_dist : forall n w x y i j, (1 <= n)%Z ->
  kernel_at n w x y i j = kernel2 (dist2 (centre n i) (centre n j) x y) w.
Proof. intros. unfold kernel_at, dist2. rewrite <- !offset_centre by auto. reflexivity. Qed.

Lemma dist2_nonneg : forall a b c d, 0 <= dist2 a b c d.
Proof. intros. apply sqrt_pos. Qed.

Lemma normalisation_kweights : forall n s w x y, (1 <= n)%Z ->
  normalisation n (floor (IZR n * x)) (floor (IZR n * y)) s w x y = kweights n w x y (s - 1).
Proof.
  intros n s w x y Hn. unfold normalisation, kweights. rewrite sumR_flat_map.
  replace (floor (IZR n * x) - s + 1)%Z with (floor (IZR n * x) - (s - 1))%Z by lia.
  replace (floor (IZR n * x) + s)%Z with (floor (IZR n * x) + (s - 1) + 1)%Z by lia.
  replace (floor (IZR n * y) - s + 1)%Z with (floor (IZR n * y) - (s - 1))%Z by lia.
  replace (floor (IZR n * y) + s)%Z with (floor (IZR n * y) + (s - 1) + 1)%Z by lia.
  apply sumR_ext. intros i _. apply sumR_ext. intros j _. apply kernel_at_dist. exact Hn.
Qed.

Lemma sumR_ge_one : forall (f : Z -> R) l a, In a l -> (forall b, In b l -> 0 <= f b) -> f a <= sumR (map f l).
Proof.
  intros f l a. induction l as [|x t IH]; intros Ha Hp; [contradiction|]. cbn [map]. rewrite sumR_cons.
  assert (0 <= f x) by (apply Hp; left; reflexivity).
  assert (0 <= sumR (map f t)). { apply sumR_nonneg. intros b Hb. apply Hp. right. exact Hb. }
  destruct Ha as [->|Ha]; [lra|]. assert (f a <= sumR (map f t)); [|lra].
  apply IH; auto. intros b Hb. apply Hp. right. exact Hb.
Qed.

Lemma kweights_pos : forall n w x y r, (1 <= n)%Z -> (0 <= r)%Z -> 1 <= w * IZR n -> 0 < kweights n w x y r.
Proof.
  intros n w x y r Hn Hr Hw. pose proof (n_pos n Hn) as Np. assert (Wp : 0 < w) by nra. unfold kweights.
  set (cx := floor (IZR n * x)). set (cy := floor (IZR n * y)).
  assert (N : forall i j, 0 <= kernel2 (dist2 (centre n i) (centre n j) x y) w).
  { intros. apply kernel2_nonneg; auto. apply dist2_nonneg. }
  assert (P : 0 < kernel2 (dist2 (centre n cx) (centre n cy) x y) w).
  { apply kernel2_pos; auto; [apply dist2_nonneg|]. unfold dist2. rewrite <- !offset_centre by auto.
    pose proof (sqrt_square w) as Sq. rewrite <- Sq by lra. clear Sq. apply sqrt_lt_1_alt.
    pose proof (square_pos (offset n cx x)). pose proof (square_pos (offset n cy y)). split; [lra|].
    apply (Rmult_lt_reg_r (IZR n * IZR n)); [nra|].
    replace ((offset n cx x * offset n cx x + offset n cy y * offset n cy y) * (IZR n * IZR n))
      with ((IZR n * offset n cx x) * (IZR n * offset n cx x) + (IZR n * offset n cy y) * (IZR n * offset n cy y)) by ring.
    rewrite !offset_scaled by auto.
    pose proof (floor_spec (IZR n * x)) as Fx. pose proof (floor_spec (IZR n * y)) as Fy. fold cx in Fx. fold cy in Fy.
    set (u := IZR cx + / 2 - IZR n * x). set (v := IZR cy + / 2 - IZR n * y).
    assert (- / 2 <= u <= / 2) by (unfold u; lra). assert (- / 2 <= v <= / 2) by (unfold v; lra).
    replace (w * w * (IZR n * IZR n)) with ((w * IZR n) * (w * IZR n)) by ring.
    assert (1 <= (w * IZR n) * (w * IZR n)) by nra. assert (u * u <= / 4) by nra. assert (v * v <= / 4) by nra. lra. }
  eapply Rlt_le_trans; [exact P|].
  eapply Rle_trans.
  - apply (sumR_ge_one (fun j => kernel2 (dist2 (centre n cx) (centre n j) x y) w) (zrange (cy - r) (cy + r + 1)) cy).
    + apply In_zrange. lia.
    + intros b _. apply N.
  - apply (sumR_ge_one (fun i => sumR (map (fun j => kernel2 (dist2 (centre n i) (centre n j) x y) w)
                                           (zrange (cy - r) (cy + r + 1)))) (zrange (cx - r) (cx + r + 1)) cx).
    + apply In_zrange. lia.
    + intros b _. apply sumR_nonneg. intros j _. apply N.
Qed.

Lemma sum_spread2 : forall wx wy f,
  sumR (map snd (spread2 wx wy f)) = sumR (map (fun i => sumR (map (f i) wy)) wx).
Proof.
  intros wx wy f. unfold spread2. rewrite sumR_map_flat_map. apply sumR_ext. intros i _.
  rewrite map_map. reflexivity.
Qed.

Lemma renormalised_at_total : forall n m h x y, (1 <= n)%Z -> 0 <= h ->
  let w := gamma2 * h in let s := floor (1 + w * IZR n) in 1 <= w * IZR n -> interior n w x -> interior n w y ->
  sumR (map snd (renormalised_at n m h x y))
  = m * (IZR n * IZR n / kweights n w x y (s - 1) * kweights n w x y s).
Proof.
  intros n m h x y Hn Hh w s Hw Ix Iy. unfold renormalised_at. fold w. pose proof (n_pos n Hn) as Np.
  assert (Hw0 : 0 <= w) by (unfold w; pose proof gamma2_pos; nra).
  assert (E : trunc (1 + w * IZR n) = s) by (unfold s; apply trunc_floor; lra). rewrite E.
  unfold interior, spans in Ix, Iy. fold s in Ix, Iy.
  assert (2 <= s)%Z. { unfold s. apply floor_le. lra. }
  set (cx := floor (IZR n * x)) in *. set (cy := floor (IZR n * y)) in *.
  assert (M : misses n cx s || misses n cy s = false).
  { unfold misses. rewrite !orb_false_iff, !Z.ltb_ge. lia. }
  rewrite M. replace (s <=? 1)%Z with false by (symmetry; apply Z.leb_gt; lia).
  rewrite sum_spread2. unfold window. rewrite !Z.max_r, !Z.min_l by lia.
  unfold cx, cy. rewrite normalisation_kweights by auto. fold cx cy.
  set (K := IZR n * IZR n / kweights n w x y (s - 1)).
  assert (Wk : kweights n w x y s = sumR (map (fun i => sumR (map (fun j => kernel_at n w x y i j)
     (zrange (cy - s) (cy + s + 1)))) (zrange (cx - s) (cx + s + 1)))).
  { unfold kweights. fold cx cy. apply sumR_ext. intros i _. apply sumR_ext. intros j _.
    symmetry. apply kernel_at_dist. exact Hn. }
  rewrite Wk. rewrite <- !Rmult_assoc. rewrite <- sumR_scal. apply sumR_ext. intros i _.
  rewrite <- sumR_scal. apply sumR_ext. intros j _. ring.
Qed.

Lemma kweights_spec : forall n p r, 0 < width2 p -> kweights n (width2 p) (p_x p) (p_y p) r = weights n p r.
Proof.
  intros n p r H. unfold kweights, weights. apply sumR_ext. intros i _. apply sumR_ext. intros j _.
  apply kernel2_W2; auto. apply dist2_nonneg.
Qed.

(** * Reference and subsampled: no write is out of bounds *)

Lemma reference_ok : forall n bx by_ p, ok_writes (square n) (reference_part n bx by_ p).
Proof.
  intros. unfold reference_part. apply ok_flat_map. intros a _. generalize (shifts by_). intro l.
  induction l as [|b t IH]; cbn [reference_loop]; [constructor|].
  destruct (_ || _); [exact IH|]. destruct (_ <=? 2)%Z; [constructor|].
  apply Forall_app. split; [apply ok_spread2|exact IH].
Qed.

Lemma subsampled_at_ok : forall e d n m h x y, ok_writes (square n) (subsampled_at e d n m h x y).
Proof.
  intros. unfold subsampled_at. destruct (_ || _); [constructor|].
  destruct (Rle_dec _ _); [|apply ok_spread2].
  assert (O : forall i j v, ok_writes (square n) (if inside n i && inside n j then [([i; j], v)] else [])).
  { intros i j v. destruct (inside n i && inside n j) eqn:I; [|constructor].
    apply ok_one. rewrite !andb_true_iff, !inside_iff in I. unfold square.
    cbn [in_bounds]. rewrite !andb_true_iff, !Z.leb_le, !Z.ltb_lt. repeat split; lia. }
  match goal with |- ok_writes _ (if ?b && ?c then _ else _) => destruct b; cbn [andb]; [destruct c eqn:C|] end.
  - apply ok_one. rewrite !andb_true_iff, !inside_iff in C. unfold square.
    cbn [in_bounds]. rewrite !andb_true_iff, !Z.leb_le, !Z.ltb_lt. repeat split; lia.
  - apply ok_flat_map. intros a _. apply ok_flat_map. intros b _. apply O.
  - apply ok_flat_map. intros a _. apply ok_flat_map. intros b _. apply O.
Qed.

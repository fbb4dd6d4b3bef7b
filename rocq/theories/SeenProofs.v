(** Proofs about images of a part of the particles. *)
From Coq Require Import List ZArith Reals Bool Lia Lra Psatz Permutation.
From Verif Require Import Base BaseLemmas VisModel VisSpec VisSubSpec VisSumProofs VisProofs VisValueProofs VisSubProofs VisTheorems SeenSpec.
Import ListNotations.
Open Scope R_scope.

Definition away (w x : R) : Prop := x < - w \/ 1 + w < x.

Lemma away_touches : forall w x, ~ touches w x -> away w x.
Proof. intros w x H. unfold touches, away in *. destruct (Rlt_dec x (- w)); [auto|]. destruct (Rlt_dec (1 + w) x); [auto|]. exfalso. apply H. lra. Qed.

Lemma away_apart : forall w x u, away w x -> 0 < u < 1 -> apart w (u - x).
Proof. intros w x u [H|H] U; [left|right]; lra. Qed.

Lemma away_pixel : forall n w x i, (0 <= i < n)%Z -> 0 <= w -> away w x -> in_pixelb n i x = false.
Proof.
  intros n w x i Hi Hw A. apply in_unit; [exact Hi|]. unfold unitb. destruct A as [A|A].
  - destruct (Rle_dec 0 x); [lra|reflexivity].
  - destruct (Rle_dec 0 x); [|reflexivity]. destruct (Rlt_dec x 1); [lra|reflexivity].
Qed.

(** * One copy *)

Lemma fast_away : forall n m h x y i j, (1 <= n)%Z -> 0 <= h -> (0 <= i < n)%Z -> (0 <= j < n)%Z ->
  away (gamma2 * h) x \/ away (gamma2 * h) y -> value_at [i; j] (fast_at n m h x y) = 0.
Proof.
  intros n m h x y i j Hn Hh Hi Hj A. rewrite fast_at_value by auto. unfold contribution2.
  assert (Hw : 0 <= gamma2 * h) by (pose proof gamma2_pos; nra). pose proof (n_pos n Hn).
  destruct (Rlt_dec (gamma2 * h * IZR n) 1) as [L|L].
  - destruct A as [A|A]; [rewrite (away_pixel n (gamma2 * h) x) by auto; reflexivity|rewrite (away_pixel n (gamma2 * h) y), andb_false_r by auto; reflexivity].
  - rewrite (kernel2_far n); auto; [ring|nra|]. rewrite !offset_centre by auto.
    destruct A as [A|A]; [left|right]; apply away_apart; auto; apply centre_bounds; auto.
Qed.

Lemma histogram_away : forall n m x y i j, (0 <= i < n)%Z -> (0 <= j < n)%Z ->
  away 0 x \/ away 0 y -> value_at [i; j] (histogram_at n m x y) = 0.
Proof.
  intros n m x y i j Hi Hj A. rewrite histogram_at_spec. cbv zeta.
  destruct (inside n (floor (IZR n * x)) && inside n (floor (IZR n * y))); [|reflexivity].
  rewrite value_at_one, cell2_eqb, <- !in_pixelb_floor.
  destruct A as [A|A]; [rewrite (away_pixel n 0 x) by (auto; lra); reflexivity|rewrite (away_pixel n 0 y), andb_false_r by (auto; lra); reflexivity].
Qed.

Lemma renormalised_away : forall n m h x y i j, (1 <= n)%Z -> 0 <= h -> (0 <= i < n)%Z -> (0 <= j < n)%Z ->
  away (gamma2 * h) x \/ away (gamma2 * h) y -> value_at [i; j] (renormalised_at n m h x y) = 0.
Proof.
  intros n m h x y i j Hn Hh Hi Hj A. unfold renormalised_at.
  assert (Hw : 0 <= gamma2 * h) by (pose proof gamma2_pos; nra). pose proof (n_pos n Hn).
  destruct (spanned (gamma2 * h) n Hn Hw) as (S1 & S2).
  destruct (misses _ _ _ || misses _ _ _); [reflexivity|].
  destruct (Z.leb_spec (trunc (1 + gamma2 * h * IZR n)) 1) as [L|L].
  - destruct (inside _ _ && inside _ _); [|reflexivity]. rewrite value_at_one, cell2_eqb, <- !in_pixelb_floor.
    destruct A as [A|A]; [rewrite (away_pixel n (gamma2 * h) x) by auto; reflexivity|rewrite (away_pixel n (gamma2 * h) y), andb_false_r by auto; reflexivity].
  - assert (Hp : 0 < gamma2 * h).
    { apply IZR_succ_le in L. nra. }
    unfold window. rewrite value_spread2. destruct (within _ _ i && within _ _ j); [|reflexivity].
    rewrite kernel_at_dist by auto. rewrite (kernel2_far n); auto; [ring|]. rewrite !offset_centre by auto.
    destruct A as [A|A]; [left|right]; apply away_apart; auto; apply centre_bounds; auto.
Qed.

Lemma resolved_away : forall n m w x y i j, (1 <= n)%Z -> (0 <= i < n)%Z -> (0 <= j < n)%Z ->
  away w x \/ away w y -> resolved n m w x y i j = 0.
Proof.
  intros n m w x y i j Hn Hi Hj A. apply resolved_far; auto.
  destruct A as [A|A]; [left|right]; apply away_apart; auto; apply centre_bounds; auto.
Qed.

Lemma subsampled_away : forall e d n m h x y i j, (1 <= n)%Z -> (1 <= d)%Z -> 0 <= h ->
  (0 <= i < n)%Z -> (0 <= j < n)%Z ->
  away (gamma2 * h) x \/ away (gamma2 * h) y -> value_at [i; j] (subsampled_at e d n m h x y) = 0.
Proof.
  intros e d n m h x y i j Hn Hd Hh Hi Hj A. rewrite subsampled_at_value by auto. unfold sampled.
  assert (Hw : 0 <= gamma2 * h) by (pose proof gamma2_pos; nra). pose proof (n_pos n Hn).
  destruct (Rle_dec _ _) as [L|L].
  - assert (P : in_pixelb n i x && in_pixelb n j y = false).
    { destruct A as [A|A]; [rewrite (away_pixel n (gamma2 * h) x) by auto; reflexivity|rewrite (away_pixel n (gamma2 * h) y), andb_false_r by auto; reflexivity]. }
    rewrite P. destruct (whole _ _ _ _); [reflexivity|]. unfold crumbs. apply square_sum_zero. intros a b Ha Hb.
    pose proof (crumb_near d (gamma2 * h) x a Hd Hw Ha) as Cx. pose proof (crumb_near d (gamma2 * h) y b Hd Hw Hb) as Cy.
    assert (Q : in_pixelb n i (crumb d (gamma2 * h) x a) && in_pixelb n j (crumb d (gamma2 * h) y b) = false).
    { destruct A as [A|A].
      - rewrite (away_pixel n 0) by (auto; unfold away in *; lra). reflexivity.
      - rewrite andb_comm, (away_pixel n 0) by (auto; unfold away in *; lra). reflexivity. }
    rewrite Q. reflexivity.
  - rewrite kmean_far; [unfold Rdiv; ring|nra|]. destruct A as [A|A]; [left|right]; intros a Ha.
    + destruct (point_bounds n _ i a Hi Ha) as (_ & B). apply away_apart; auto.
    + destruct (point_bounds n _ j a Hj Ha) as (_ & B). apply away_apart; auto.
Qed.

Lemma slice_away : forall n zs m h x y z i j, (1 <= n)%Z -> 0 < h -> (0 <= i < n)%Z -> (0 <= j < n)%Z ->
  away (gamma3 * h) x \/ away (gamma3 * h) y \/ apart (gamma3 * h) (z - zs) ->
  value_at [i; j] (slice_at n zs m h x y z) = 0.
Proof.
  intros n zs m h x y z i j Hn Hh Hi Hj A. rewrite slice_at_value by auto. unfold slice_value.
  destruct (above _ _ _ _ || above _ _ _ _); [reflexivity|].
  assert (Hw : 0 < gamma3 * h) by (pose proof gamma3_pos; nra).
  rewrite dist3_offset by auto. rewrite kernel3_far; auto; [ring|]. rewrite !offset_centre by auto.
  destruct A as [A|[A|A]]; [left|right;left|right;right]; auto; apply away_apart; auto; apply centre_bounds; auto.
Qed.

Lemma voxel_away : forall n nz m h x y z i j k, (1 <= n)%Z -> (1 <= nz)%Z -> 0 <= h ->
  (0 <= i < n)%Z -> (0 <= j < n)%Z -> (0 <= k < nz)%Z ->
  away (gamma3 * h) x \/ away (gamma3 * h) y \/ away (gamma3 * h) z ->
  value_at [i; j; k] (voxel_at nz n m h x y z) = 0.
Proof.
  intros n nz m h x y z i j k Hn Hnz Hh Hi Hj Hk A. rewrite voxel_at_value by auto. unfold voxel_value.
  assert (Hw : 0 <= gamma3 * h) by (pose proof gamma3_pos; nra).
  assert (P : in_pixelb n i x && in_pixelb n j y && in_pixelb nz k z = false).
  { destruct A as [A|[A|A]].
    - rewrite (away_pixel n (gamma3 * h) x) by auto. reflexivity.
    - rewrite (away_pixel n (gamma3 * h) y) by auto. rewrite andb_false_r. reflexivity.
    - rewrite (away_pixel nz (gamma3 * h) z) by auto. rewrite andb_false_r. reflexivity. }
  rewrite P. destruct (Rlt_dec (gamma3 * h * IZR n) (/ 2)) as [L|L]; [reflexivity|].
  destruct (Rlt_dec (gamma3 * h * IZR nz) (/ 2)) as [L'|L']; [reflexivity|].
  destruct (above _ _ _ i || above _ _ _ j || above _ _ _ k); [reflexivity|].
  pose proof (n_pos n Hn). unfold dist3. rewrite kernel3_far; [ring|nra|].
  destruct A as [A|[A|A]]; [left|right;left|right;right]; apply away_apart; auto; apply centre_bounds; auto.
Qed.

(** * One particle *)

Lemma unseen2 : forall bx by_ w p, ~ seen2 bx by_ w p -> forall a b : Z,
  away w (p_x p + IZR a * bx) \/ away w (p_y p + IZR b * by_).
Proof.
  intros bx by_ w p H a b. destruct (Rle_dec (- w) (p_x p + IZR a * bx)) as [A|A]; [|left; left; lra].
  destruct (Rle_dec (p_x p + IZR a * bx) (1 + w)) as [B|B]; [|left; right; lra]. right. apply away_touches.
  intro C. apply H. exists a, b. split; [split; assumption|exact C].
Qed.

Lemma unseen3 : forall bx by_ bz w p, ~ seen3 bx by_ bz w p -> forall a b c : Z,
  away w (p_x p + IZR a * bx) \/ away w (p_y p + IZR b * by_) \/ away w (p_z p + IZR c * bz).
Proof.
  intros bx by_ bz w p H a b c. destruct (Rle_dec (- w) (p_x p + IZR a * bx)) as [A|A]; [|left; left; lra].
  destruct (Rle_dec (p_x p + IZR a * bx) (1 + w)) as [B|B]; [|left; right; lra]. right.
  destruct (Rle_dec (- w) (p_y p + IZR b * by_)) as [C|C]; [|left; left; lra].
  destruct (Rle_dec (p_y p + IZR b * by_) (1 + w)) as [D|D]; [|left; right; lra]. right.
  apply away_touches. intro E. apply H. exists a, b, c. split; [split; assumption|]. split; [split; assumption|exact E].
Qed.

Lemma unseen_slice : forall zs bx by_ bz w p, ~ seen_slice zs bx by_ bz w p -> forall a b c : Z,
  away w (p_x p + IZR a * bx) \/ away w (p_y p + IZR b * by_) \/ apart w (p_z p + IZR c * bz - zs).
Proof.
  intros zs bx by_ bz w p H a b c. destruct (Rle_dec (- w) (p_x p + IZR a * bx)) as [A|A]; [|left; left; lra].
  destruct (Rle_dec (p_x p + IZR a * bx) (1 + w)) as [B|B]; [|left; right; lra]. right.
  destruct (Rle_dec (- w) (p_y p + IZR b * by_)) as [C|C]; [|left; left; lra].
  destruct (Rle_dec (p_y p + IZR b * by_) (1 + w)) as [D|D]; [|left; right; lra]. right.
  destruct (Rle_dec (- w) (p_z p + IZR c * bz - zs)) as [E|E]; [|right; lra].
  destruct (Rle_dec (p_z p + IZR c * bz - zs) w) as [F|F]; [|left; lra].
  exfalso. apply H. exists a, b, c. split; [split; assumption|]. split; [split; assumption|split; assumption].
Qed.

(** * All particles *)

Lemma keep_image : forall s (f : part -> list write) (seen : part -> Prop) ps qs,
  (forall p, ok_writes s (f p)) ->
  (forall p c, In p ps -> ~ seen p -> in_bounds s c = true -> value_at c (f p) = 0) ->
  without seen ps qs ->
  agree s (render s (flat_map f ps)) (render s (flat_map f qs)).
Proof.
  intros s f seen ps qs O Z0 K.
  destruct (render_spec s (flat_map f ps)) as (a & Ea & Va); [apply ok_flat_map; auto|].
  destruct (render_spec s (flat_map f qs)) as (b & Eb & Vb); [apply ok_flat_map; auto|].
  exists a, b. split; [exact Ea|]. split; [exact Eb|]. intros c Hc. rewrite Va, Vb, !value_at_flat_map.
  clear Ea Eb Va Vb. induction K as [|p ps qs K IH|p ps qs U K IH]; [reflexivity| |]; cbn [map]; rewrite ?sumR_cons;
    rewrite IH by (intros q c' I; apply Z0; right; exact I); [reflexivity|].
  rewrite (Z0 p c (or_introl eq_refl) U Hc). ring.
Qed.

Lemma without_filter : forall A (seen : A -> Prop) (keep : A -> bool) ps,
  (forall p, In p ps -> seen p -> keep p = true) -> without seen ps (filter keep ps).
Proof.
  intros A seen keep ps. induction ps as [|p ps IH]; intro H; cbn [filter]; [constructor|].
  assert (K : without seen ps (filter keep ps)) by (apply IH; intros q I; apply H; right; exact I).
  destruct (keep p) eqn:E; constructor; auto. intro S. rewrite (H p (or_introl eq_refl) S) in E. discriminate.
Qed.
Lemma without_in : forall A (seen : A -> Prop) ps qs p, without seen ps qs -> In p qs -> In p ps.
Proof. intros A seen ps qs p K. induction K; cbn; tauto. Qed.
Lemma without_map : forall A B (s : A -> Prop) (t : B -> Prop) (f : A -> B) ps qs, (forall p, In p ps -> t (f p) -> s p) ->
  without s ps qs -> without t (map f ps) (map f qs).
Proof.
  intros A B s t f ps qs H K. induction K as [|p ps qs K IH|p ps qs U K IH]; cbn [map]; [constructor| |].
  - constructor. apply IH. intros q I. apply H. right. exact I.
  - apply without_left; [intro T; apply U, H; [left; reflexivity|exact T]|]. apply IH. intros q I. apply H. right. exact I.
Qed.
Lemma without_both : forall A (s : A -> Prop) (f : A -> bool) ps qs,
  without s ps qs -> without s (filter f ps) (filter f qs).
Proof.
  intros A s f ps qs K. induction K as [|p ps qs K IH|p ps qs U K IH]; cbn [filter]; [constructor| |]; destruct (f p); try constructor; auto.
Qed.

Lemma in_bounds2 : forall n m c, in_bounds [n; m] c = true -> exists i j, c = [i; j] /\ (0 <= i < n)%Z /\ (0 <= j < m)%Z.
Proof.
  intros n m c H. destruct c as [|i [|j [|k c]]]; cbn in H; rewrite ?andb_false_r in H; try discriminate.
  rewrite !andb_true_iff, !Z.leb_le, !Z.ltb_lt in H. exists i, j. split; [reflexivity|lia].
Qed.
Lemma in_bounds3 : forall n m l c, in_bounds [n; m; l] c = true ->
  exists i j k, c = [i; j; k] /\ (0 <= i < n)%Z /\ (0 <= j < m)%Z /\ (0 <= k < l)%Z.
Proof.
  intros n m l c H. destruct c as [|i [|j [|k [|o c]]]]; cbn in H; rewrite ?andb_false_r in H; try discriminate.
  rewrite !andb_true_iff, !Z.leb_le, !Z.ltb_lt in H. exists i, j, k. split; [reflexivity|lia].
Qed.

Lemma agree_sym : forall s a b, agree s a b -> agree s b a.
Proof. intros s a b (x & y & -> & -> & H). exists y, x. split; [reflexivity|]. split; [reflexivity|]. intros c Hc. symmetry. apply H. exact Hc. Qed.
Lemma agree_trans : forall s a b c, agree s a b -> agree s b c -> agree s a c.
Proof.
  intros s a b c (x & y & -> & -> & H) (y' & z & E & -> & H'). injection E as <-. exists x, z.
  split; [reflexivity|]. split; [reflexivity|]. intros k Hk. rewrite H by exact Hk. apply H'. exact Hk.
Qed.

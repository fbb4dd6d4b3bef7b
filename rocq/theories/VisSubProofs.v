(** Values of the pixels of the reference and subsampled projections. *)
From Coq Require Import List ZArith Reals Bool Lia Lra Psatz Permutation.
From Verif Require Import Base BaseLemmas VisModel VisSpec VisSubSpec VisSumProofs VisProofs VisValueProofs.
Import ListNotations.
Open Scope R_scope.

Lemma width2_nonneg : forall p, 0 <= p_h p -> 0 <= width2 p.
Proof. intros p H. unfold width2. lra. Qed.

(** * Reference *)

Definition resolved (n : Z) (m w x y : R) (i j : Z) : R :=
  if Rlt_dec (w * IZR n) 2 then 0 else m * kernel2 (dist2 (centre n i) (centre n j) x y) w.

Lemma spread_value : forall n m w x y i j, (1 <= n)%Z -> 0 < w -> (0 <= i < n)%Z -> (0 <= j < n)%Z ->
  let cx := floor (IZR n * x) in let cy := floor (IZR n * y) in let s := trunc (1 + w * IZR n) in
  value_at [i; j] (if misses n cx s || misses n cy s then []
                   else spread2 (window n (cx - s) (cx + s + 1)) (window n (cy - s) (cy + s + 1))
                                (fun i j => m * kernel_at n w x y i j))
  = m * kernel2 (dist2 (centre n i) (centre n j) x y) w.
Proof.
  intros n m w x y i j Hn Hw Hi Hj cx cy s. assert (Hw0 : 0 <= w) by lra.
  destruct (spanned w n Hn Hw0) as (S1 & S2). fold s in S1, S2.
  destruct (misses n cx s || misses n cy s) eqn:M.
  - rewrite (kernel2_far n); auto. { rewrite value_nil. lra. }
    apply orb_true_iff in M. destruct M as [M|M]; [left|right];
      (eapply out_window; [auto|exact (proj2 S2)|]); eapply misses_out; eauto.
  - unfold window. rewrite value_spread2, !in_window by auto.
    destruct (within (cx - s) (cx + s + 1) i) eqn:Wi; [destruct (within (cy - s) (cy + s + 1) j) eqn:Wj|]; cbn [andb].
    + f_equal. apply kernel_at_dist. exact Hn.
    + rewrite (kernel2_far n); auto; [lra|]. right.
      eapply out_window; [auto|exact (proj2 S2)|]. apply within_false. exact Wj.
    + rewrite (kernel2_far n); auto; [lra|]. left.
      eapply out_window; [auto|exact (proj2 S2)|]. apply within_false. exact Wi.
Qed.

Lemma reference_loop_value : forall n m h x y box i j sh, (1 <= n)%Z -> 0 <= h ->
  (0 <= i < n)%Z -> (0 <= j < n)%Z ->
  value_at [i; j] (reference_loop n m h x y box sh)
  = sumR (map (fun b => resolved n m (gamma2 * h) x (y + IZR b * box) i j) sh).
Proof.
  intros n m h x y box i j sh Hn Hh Hi Hj. pose proof (n_pos n Hn) as Np.
  assert (Hw : 0 <= gamma2 * h) by (pose proof gamma2_pos; nra).
  destruct (spanned (gamma2 * h) n Hn Hw) as (S1 & S2).
  induction sh as [|b t IH]; [reflexivity|]. cbn [reference_loop map]. rewrite sumR_cons, <- IH. clear IH.
  unfold resolved. set (s := trunc (1 + gamma2 * h * IZR n)) in *.
  destruct (Rlt_dec (gamma2 * h * IZR n) 2) as [L|L].
  - assert (Hs : (s <= 2)%Z) by (apply IZR_le_lt; lra).
    replace (s <=? 2)%Z with true by (symmetry; apply Z.leb_le; exact Hs).
    destruct (misses _ _ s || misses _ _ s); [lra|].
    rewrite value_nil. clear - Hs. subst s. induction t as [|b' t IH]; cbn [reference_loop]; [rewrite value_nil; lra|].
    destruct (misses _ _ _ || misses _ _ _); [exact IH|]. destruct (Z.leb_spec (trunc (1 + gamma2 * h * IZR n)) 2); [rewrite value_nil; lra|lia].
  - assert (Hs : (2 < s)%Z) by (apply IZR_lt_lt; lra).
    replace (s <=? 2)%Z with false by (symmetry; apply Z.leb_gt; exact Hs).
    assert (Hp : 0 < gamma2 * h) by nra.
    pose proof (spread_value n m (gamma2 * h) x (y + IZR b * box) i j Hn Hp Hi Hj) as V. cbv zeta in V. fold s in V.
    rewrite <- V. destruct (misses _ _ s || misses _ _ s); [rewrite value_nil; lra|].
    rewrite value_at_app. reflexivity.
Qed.

Lemma reference_part_value : forall n bx by_ p i j, (1 <= n)%Z -> 0 <= p_h p -> (0 <= i < n)%Z -> (0 <= j < n)%Z ->
  value_at [i; j] (reference_part n bx by_ p)
  = sumR (map (fun a => sumR (map (fun b =>
      resolved n (p_m p) (gamma2 * p_h p) (p_x p + IZR a * bx) (p_y p + IZR b * by_) i j) (shifts by_))) (shifts bx)).
Proof.
  intros n bx by_ p i j Hn Hh Hi Hj. unfold reference_part. rewrite value_at_flat_map.
  apply sumR_ext. intros a _. apply reference_loop_value; auto.
Qed.

Lemma resolved_far : forall n m w x y i j, (1 <= n)%Z ->
  apart w (centre n i - x) \/ apart w (centre n j - y) -> resolved n m w x y i j = 0.
Proof.
  intros n m w x y i j Hn H. unfold resolved. destruct (Rlt_dec _ _) as [L|L]; [reflexivity|].
  rewrite (kernel2_far n); auto; [lra| |].
  - pose proof (n_pos n Hn). nra.
  - rewrite !offset_centre by auto. exact H.
Qed.

Lemma resolved_spec : forall n p x y i j, (1 <= n)%Z ->
  resolved n (p_m p) (gamma2 * p_h p) x y i j = resolved2 n p x y i j.
Proof.
  intros n p x y i j Hn. unfold resolved, resolved2. change (gamma2 * p_h p) with (width2 p).
  destruct (Rlt_dec _ _) as [L|L]; [reflexivity|]. rewrite kernel2_W2; auto; [|apply dist2_nonneg].
  pose proof (n_pos n Hn). nra.
Qed.

(** * Subsampled: kernels above a quarter of a pixel *)

Lemma point_bounds : forall n f i a, (0 <= i < n)%Z -> (0 <= a < f)%Z ->
  IZR i / IZR n < point n f i a < (IZR i + 1) / IZR n /\ 0 < point n f i a < 1.
Proof.
  intros n f i a (Hi0 & Hi1) (Ha0 & Ha1). apply IZR_le in Hi0, Ha0. apply IZR_succ_le in Hi1, Ha1.
  assert (B : 0 < (IZR a + 1 / 2) / IZR f < 1).
  { split; [apply Rdiv_lt_0_compat; lra|]. apply (Rmult_lt_reg_r (IZR f)); [lra|]. unfold Rdiv at 1.
    rewrite Rmult_assoc, Rinv_l; lra. }
  assert (P : 0 < / IZR n) by (apply Rinv_0_lt_compat; lra).
  assert (I : IZR n * / IZR n = 1) by (apply Rinv_r; lra).
  unfold point. unfold Rdiv in *. repeat split; try (apply Rmult_lt_compat_r; lra); nra.
Qed.

Lemma kernel2_near : forall u v x y w, 0 < w -> apart w (u - x) \/ apart w (v - y) -> kernel2 (dist2 u v x y) w = 0.
Proof.
  intros u v x y w Hw H. apply kernel2_zero; auto. unfold dist2. apply sqrt_ge; [lra|].
  pose proof (square_pos (u - x)). pose proof (square_pos (v - y)).
  destruct H as [H|H]; apply apart_square in H; lra.
Qed.

(** Outside the window every point of a pixel is out of reach. *)
Lemma point_far : forall n f x w s i a, (1 <= n)%Z -> w * IZR n < IZR s -> (0 <= i < n)%Z -> (0 <= a < f)%Z ->
  let c := floor (IZR n * x) in ~ (c - s <= i < c + s + 1)%Z -> apart w (point n f i a - x).
Proof.
  intros n f x w s i a Hn Hw Hi Ha c Ho. apply apart_scaled with n; auto. pose proof (n_pos n Hn) as Np.
  destruct (point_bounds n f i a Hi Ha) as ((B1 & B2) & _). set (u := point n f i a) in *.
  assert (I : IZR n * / IZR n = 1) by (apply Rinv_r; lra). unfold Rdiv in *.
  assert (IZR i < IZR n * u < IZR i + 1).
  { split; apply (Rmult_lt_compat_l (IZR n)) in B1; apply (Rmult_lt_compat_l (IZR n)) in B2; try lra;
      rewrite <- ?Rmult_assoc in *; rewrite ?(Rmult_comm (IZR n) (IZR i)), ?(Rmult_comm (IZR n) (IZR i + 1)) in *;
      rewrite ?Rmult_assoc, ?I in *; nra. }
  pose proof (floor_spec (IZR n * x)) as F. fold c in F.
  assert (D : (i < c - s \/ c + s < i)%Z) by lia. destruct D as [D|D].
  - right. apply IZR_succ_le in D. rewrite minus_IZR in D. lra.
  - left. apply IZR_succ_le in D. rewrite plus_IZR in D. lra.
Qed.

Lemma sumR_square : forall k f, sumR (flat_map (fun a => map (fun b => f a b) (zrange 0 k)) (zrange 0 k)) = square_sum k f.
Proof. intros k f. unfold square_sum. rewrite sumR_flat_map. reflexivity. Qed.

Lemma square_sum_ext : forall k f g, (forall a b, (0 <= a < k)%Z -> (0 <= b < k)%Z -> f a b = g a b) ->
  square_sum k f = square_sum k g.
Proof.
  intros k f g H. unfold square_sum. apply sumR_ext. intros a Ha. apply sumR_ext. intros b Hb.
  apply In_zrange in Ha, Hb. apply H; auto.
Qed.

Lemma square_sum_zero : forall k f, (forall a b, (0 <= a < k)%Z -> (0 <= b < k)%Z -> f a b = 0) -> square_sum k f = 0.
Proof.
  intros k f H. unfold square_sum. apply sumR_zero. intros a Ha. apply sumR_zero. intros b Hb.
  apply In_zrange in Ha, Hb. apply H; auto.
Qed.

Lemma square_sum_scal : forall k c f, square_sum k (fun a b => c * f a b) = c * square_sum k f.
Proof.
  intros k c f. unfold square_sum. rewrite <- sumR_scal. apply sumR_ext. intros a _. apply sumR_scal.
Qed.

Lemma flat_map_all_nil : forall A B (f : A -> list B) l, (forall a, In a l -> f a = []) -> flat_map f l = [].
Proof.
  intros A B f l. induction l as [|x t IH]; intro H; [reflexivity|]. cbn [flat_map].
  rewrite H by (left; reflexivity). apply IH. intros a Ha. apply H. right. exact Ha.
Qed.

Definition kmean (n f : Z) (w x y : R) (i j : Z) : R :=
  square_sum f (fun a b => kernel2 (dist2 (point n f i a) (point n f j b) x y) w).

Lemma subsample_kmean : forall n f w x y i j, (1 <= n)%Z -> (1 <= f)%Z ->
  subsample n f w x y i j = kmean n f w x y i j.
Proof.
  intros n f w x y i j Hn Hf. unfold subsample, kmean. rewrite sumR_square. apply square_sum_ext.
  intros a b _ _. pose proof (n_pos n Hn). pose proof (n_pos f Hf). unfold dist2, point. do 2 f_equal. f_equal; field; lra.
Qed.

Lemma kmean_far : forall n f w x y i j, 0 < w ->
  (forall a, (0 <= a < f)%Z -> apart w (point n f i a - x)) \/ (forall b, (0 <= b < f)%Z -> apart w (point n f j b - y)) ->
  kmean n f w x y i j = 0.
Proof.
  intros n f w x y i j Hw H. apply square_sum_zero. intros a b Ha Hb. apply kernel2_near; auto.
  destruct H as [H|H]; [left|right]; apply H; assumption.
Qed.

Definition sample_factor (evals n : Z) (w : R) : Z := Z.max 1 (2 * ceil (IZR evals / (1 + w * IZR n))).

Lemma sample_factor_spec : forall evals n w f, (1 <= n)%Z -> (1 <= evals)%Z -> 0 <= w ->
  enough_points evals n w f -> sample_factor evals n w = f.
Proof.
  intros evals n w f Hn He Hw (k & -> & K1 & K2). unfold sample_factor.
  pose proof (n_pos n Hn). pose proof (n_pos evals He). assert (D : 0 < 1 + w * IZR n) by nra.
  assert (E : ceil (IZR evals / (1 + w * IZR n)) = k).
  { apply ceil_unique. set (q := IZR evals / (1 + w * IZR n)).
    assert (Q : q * (1 + w * IZR n) = IZR evals) by (unfold q; field; lra). split; nra. }
  rewrite E. assert (0 < k)%Z; [|lia]. apply IZR_lt_lt. nra.
Qed.

Definition wide_writes (evals n : Z) (m w x y : R) : list write :=
  let cx := floor (IZR n * x) in let cy := floor (IZR n * y) in let s := trunc (1 + w * IZR n) in
  if misses n cx s || misses n cy s then []
  else let f := sample_factor evals n w in
       spread2 (window n (cx - s) (cx + s + 1)) (window n (cy - s) (cy + s + 1))
               (fun i j => m * subsample n f w x y i j * (1 / IZR f * (1 / IZR f))).

Lemma wide_value : forall evals n m w x y i j, (1 <= n)%Z -> 0 < w -> (0 <= i < n)%Z -> (0 <= j < n)%Z ->
  value_at [i; j] (wide_writes evals n m w x y)
  = m * (kmean n (sample_factor evals n w) w x y i j
         / (IZR (sample_factor evals n w) * IZR (sample_factor evals n w))).
Proof.
  intros evals n m w x y i j Hn Hw Hi Hj. unfold wide_writes. assert (Hw0 : 0 <= w) by lra.
  set (f := sample_factor evals n w). assert (Hf : (1 <= f)%Z) by (unfold f, sample_factor; lia).
  destruct (spanned w n Hn Hw0) as (S1 & S2). set (s := trunc (1 + w * IZR n)) in *.
  set (cx := floor (IZR n * x)). set (cy := floor (IZR n * y)).
  assert (Far : ~ (cx - s <= i < cx + s + 1)%Z \/ ~ (cy - s <= j < cy + s + 1)%Z -> kmean n f w x y i j = 0).
  { intro O. apply kmean_far; auto. destruct O as [O|O]; [left|right]; intros a Ha;
      eapply point_far; eauto; apply S2. }
  destruct (misses n cx s || misses n cy s) eqn:M.
  - rewrite Far. { rewrite value_nil. unfold Rdiv. ring. }
    apply orb_true_iff in M. destruct M as [M|M]; [left|right]; eapply misses_out; eauto.
  - unfold window. rewrite value_spread2, !in_window by auto.
    destruct (within (cx - s) (cx + s + 1) i) eqn:Wi; [destruct (within (cy - s) (cy + s + 1) j) eqn:Wj|]; cbn [andb].
    + rewrite subsample_kmean by auto. pose proof (n_pos f Hf). field. lra.
    + rewrite Far. { unfold Rdiv. ring. } right. apply within_false. exact Wj.
    + rewrite Far. { unfold Rdiv. ring. } left. apply within_false. exact Wi.
Qed.

(** * Subsampled: kernels up to a quarter of a pixel *)

Lemma dither_raw_share : forall d a b, (1 <= d)%Z -> dither_raw d a b = share d a b.
Proof.
  intros d a b Hd. pose proof (n_pos d Hd). unfold dither_raw, share.
  rewrite kernel2_W2 by (try lra; apply sqrt_pos). unfold dist2. do 2 f_equal. f_equal; field.
Qed.

Lemma share_nonneg : forall d a b, (1 <= d)%Z -> 0 <= share d a b.
Proof.
  intros d a b Hd. rewrite <- dither_raw_share by auto. pose proof (n_pos d Hd). apply kernel2_nonneg; [lra|apply sqrt_pos].
Qed.

Lemma share_pos : forall d a b, (1 <= d)%Z ->
  (IZR a + 1 / 2 - IZR d) * (IZR a + 1 / 2 - IZR d) + (IZR b + 1 / 2 - IZR d) * (IZR b + 1 / 2 - IZR d) < IZR d * IZR d ->
  0 < share d a b.
Proof.
  intros d a b Hd H. pose proof (n_pos d Hd). unfold share. rewrite <- kernel2_W2 by (try lra; apply dist2_nonneg).
  apply kernel2_pos; [lra|apply dist2_nonneg|]. unfold dist2. rewrite <- (sqrt_square (IZR d)) at 5 by lra.
  apply sqrt_lt_1_alt. split; [|exact H]. pose proof (square_pos (IZR a + 1 / 2 - IZR d)). pose proof (square_pos (IZR b + 1 / 2 - IZR d)). lra.
Qed.

Lemma square_sum_nonneg : forall k f, (forall a b, 0 <= f a b) -> 0 <= square_sum k f.
Proof. intros k f H. apply sumR_nonneg. intros a _. apply sumR_nonneg. intros b _. apply H. Qed.

Lemma square_sum_ge : forall k f a b, (forall a b, 0 <= f a b) -> (0 <= a < k)%Z -> (0 <= b < k)%Z -> f a b <= square_sum k f.
Proof.
  intros k f a b Hf Ha Hb. eapply Rle_trans; [apply (sumR_ge_one (f a) (zrange 0 k) b)|].
  - apply In_zrange. exact Hb.
  - intros. apply Hf.
  - apply (sumR_ge_one (fun a => sumR (map (fun b => f a b) (zrange 0 k))) (zrange 0 k) a).
    + apply In_zrange. exact Ha.
    + intros c _. apply sumR_nonneg. intros. apply Hf.
Qed.

Lemma shares_pos : forall d, (1 <= d)%Z -> 0 < square_sum (2 * d) (share d).
Proof.
  intros d Hd. pose proof (n_pos d Hd). apply Rlt_le_trans with (share d d d).
  - apply share_pos; auto. nra.
  - apply square_sum_ge; try lia. intros. apply share_nonneg. exact Hd.
Qed.

Lemma dithered_fraction : forall n d a b, (1 <= d)%Z -> dithered n d a b = IZR n * IZR n * fraction d a b.
Proof.
  intros n d a b Hd. unfold dithered, fraction. rewrite dither_raw_share by auto.
  assert (E : dither_sum d = square_sum (2 * d) (share d)).
  { unfold dither_sum. rewrite sumR_square. apply square_sum_ext. intros. apply dither_raw_share. exact Hd. }
  rewrite E. pose proof (shares_pos d Hd). field. lra.
Qed.

Lemma fraction_nonneg : forall d a b, (1 <= d)%Z -> 0 <= fraction d a b.
Proof.
  intros d a b Hd. pose proof (shares_pos d Hd). pose proof (share_nonneg d a b Hd). unfold fraction.
  apply Rmult_le_pos; [lra|]. apply Rlt_le, Rinv_0_lt_compat. lra.
Qed.

Lemma fractions_one : forall d, (1 <= d)%Z -> square_sum (2 * d) (fraction d) = 1.
Proof.
  intros d Hd. pose proof (shares_pos d Hd). transitivity (/ square_sum (2 * d) (share d) * square_sum (2 * d) (share d)).
  - rewrite <- square_sum_scal. apply square_sum_ext. intros. unfold fraction, Rdiv. ring.
  - apply Rinv_l. lra.
Qed.

Definition crumb_pixel (n d : Z) (w x : R) (a : Z) : Z := floor (IZR n * crumb d w x a).

Lemma dither_pixel_crumb : forall n d w x a, (1 <= d)%Z -> dither_pixel n d w x a = crumb_pixel n d w x a.
Proof. intros n d w x a Hd. pose proof (n_pos d Hd). unfold dither_pixel, crumb_pixel, crumb. do 3 f_equal. field. lra. Qed.

Definition crumb_writes (n d : Z) (m w x y : R) : list write :=
  flat_map (fun a => flat_map (fun b =>
    let i := crumb_pixel n d w x a in let j := crumb_pixel n d w y b in
    if inside n i && inside n j then [([i; j], m * (IZR n * IZR n) * fraction d a b)] else [])
    (zrange 0 (2 * d))) (zrange 0 (2 * d)).

Definition crumbs (n d : Z) (m w x y : R) (i j : Z) : R :=
  square_sum (2 * d) (fun a b => if in_pixelb n i (crumb d w x a) && in_pixelb n j (crumb d w y b)
                                 then m * (IZR n * IZR n) * fraction d a b else 0).

Lemma crumb_writes_value : forall n d m w x y i j, (0 <= i < n)%Z -> (0 <= j < n)%Z ->
  value_at [i; j] (crumb_writes n d m w x y) = crumbs n d m w x y i j.
Proof.
  intros n d m w x y i j Hi Hj. unfold crumb_writes, crumbs, square_sum. rewrite value_at_flat_map.
  apply sumR_ext. intros a _. rewrite value_at_flat_map. apply sumR_ext. intros b _. cbv zeta.
  rewrite !in_pixelb_floor. fold (crumb_pixel n d w x a) (crumb_pixel n d w y b).
  set (u := crumb_pixel n d w x a). set (v := crumb_pixel n d w y b).
  destruct (inside n u && inside n v) eqn:I.
  - rewrite value_at_one, cell2_eqb. reflexivity.
  - rewrite value_nil. destruct (Z.eqb_spec u i), (Z.eqb_spec v j); cbn; auto. subst i j.
    rewrite (proj2 (inside_iff n u)), (proj2 (inside_iff n v)) in I by auto. discriminate.
Qed.

Definition spills (n d : Z) (m w x y : R) : R :=
  square_sum (2 * d) (fun a b => if unitb (crumb d w x a) && unitb (crumb d w y b)
                                 then m * (IZR n * IZR n) * fraction d a b else 0).

Lemma crumb_writes_total : forall n d m w x y, (1 <= n)%Z ->
  sumR (map snd (crumb_writes n d m w x y)) = spills n d m w x y.
Proof.
  intros n d m w x y Hn. unfold crumb_writes, spills, square_sum. rewrite sumR_map_flat_map.
  apply sumR_ext. intros a _. rewrite sumR_map_flat_map. apply sumR_ext. intros b _. cbv zeta. unfold crumb_pixel.
  rewrite !inside_unit by auto. destruct (_ && _); cbn [map snd]; rewrite ?sumR_cons, ?sumR_nil; lra.
Qed.

(** The decision between the own pixel and the crumbs. *)
Definition whole (n : Z) (w x y : R) : bool := unitb x && unitb y && clear n w x && clear n w y.

Definition small_writes (n d : Z) (m w x y : R) : list write :=
  if whole n w x y then [([floor (IZR n * x); floor (IZR n * y)], m * (IZR n * IZR n))]
  else crumb_writes n d m w x y.

(** A crumb is less than a quarter of a pixel away. *)
Lemma crumb_near : forall d w x a, (1 <= d)%Z -> 0 <= w -> (0 <= a < 2 * d)%Z -> x - w <= crumb d w x a <= x + w.
Proof.
  intros d w x a Hd Hw (H0 & H1). pose proof (n_pos d Hd) as P. apply IZR_le in H0. apply IZR_succ_le in H1. rewrite mult_IZR in H1.
  unfold crumb. set (q := IZR a / IZR d). assert (Q : q * IZR d = IZR a) by (unfold q; field; lra).
  assert (0 <= q <= 2) by (split; nra). nra.
Qed.

Lemma crumb_upper : forall d w x a, (1 <= d)%Z -> 0 < w -> (0 <= a < 2 * d)%Z -> crumb d w x a < x + w.
Proof.
  intros d w x a Hd Hw (H0 & H1). pose proof (n_pos d Hd) as P. apply IZR_succ_le in H1. rewrite mult_IZR in H1.
  unfold crumb. set (q := IZR a / IZR d). assert (Q : q * IZR d = IZR a) by (unfold q; field; lra).
  assert (q < 2) by nra. nra.
Qed.

Lemma missed_crumbs : forall n d w x a, (1 <= n)%Z -> (1 <= d)%Z -> 0 <= w -> w * IZR n <= 1 / 4 -> (0 <= a < 2 * d)%Z ->
  misses n (floor (IZR n * x)) (trunc (1 + w * IZR n)) = true -> unitb (crumb d w x a) = false.
Proof.
  intros n d w x a Hn Hd Hw Hq Ha M. pose proof (n_pos n Hn) as Np.
  destruct (spanned w n Hn Hw) as (S1 & S2). set (s := trunc (1 + w * IZR n)) in *.
  assert (Es : s = 1%Z). { assert (s <= 1)%Z; [|lia]. apply IZR_le_lt. lra. }
  rewrite Es in M. clear s S1 S2 Es. unfold misses in M. rewrite orb_true_iff, !Z.ltb_lt in M.
  pose proof (floor_spec (IZR n * x)) as F. pose proof (crumb_near d w x a Hd Hw Ha) as C.
  unfold unitb. destruct (Rle_dec 0 (crumb d w x a)); [|reflexivity]. destruct (Rlt_dec (crumb d w x a) 1); [|reflexivity].
  exfalso. destruct M as [M|M]; apply IZR_succ_le in M; rewrite ?plus_IZR, ?minus_IZR in M; nra.
Qed.

Lemma in_unit : forall n i x, (0 <= i < n)%Z -> unitb x = false -> in_pixelb n i x = false.
Proof.
  intros n i x Hi U. assert (Hn : (1 <= n)%Z) by lia. rewrite <- (inside_unit n) in U by auto.
  rewrite in_pixelb_floor. apply Z.eqb_neq. intros E.
  assert (T : inside n (floor (IZR n * x)) = true) by (apply inside_iff; lia). congruence.
Qed.

Lemma clear_model : forall n w x, clear n w x
  = negb ((if Rlt_dec (x - IZR (floor (IZR n * x)) / IZR n) w then true else false)
          || (if Rlt_dec (1 - (x - IZR (floor (IZR n * x)) / IZR n)) w then true else false)).
Proof.
  intros n w x. unfold clear, least. cbv zeta. set (l := x - _).
  destruct (Rle_dec w l), (Rlt_dec l w), (Rle_dec w (1 - l)), (Rlt_dec (1 - l) w); cbn; auto; lra.
Qed.

Lemma quarter : forall n w, (1 <= n)%Z -> (w <= / 4 * (1 / IZR n) <-> w * IZR n <= 1 / 4).
Proof.
  intros n w Hn. pose proof (n_pos n Hn) as Np. assert (E : 1 / IZR n * IZR n = 1) by (field; lra).
  set (q := 1 / IZR n) in *. assert (0 < q) by (unfold q; apply Rdiv_lt_0_compat; lra). split; intro H0; nra.
Qed.

Lemma misses_not_unit : forall n w x, (1 <= n)%Z -> 0 <= w ->
  misses n (floor (IZR n * x)) (trunc (1 + w * IZR n)) = true -> unitb x = false.
Proof.
  intros n w x Hn Hw M. destruct (unitb x) eqn:U; auto. rewrite <- (inside_unit n) in U by auto. apply inside_iff in U.
  rewrite pixel_not_missed in M by auto. discriminate.
Qed.

(** The writes of a copy: those of the specification, up to writes that are dropped. *)
Lemma subsampled_small : forall e d n m h x y, (1 <= n)%Z -> (1 <= d)%Z -> 0 <= h ->
  gamma2 * h * IZR n <= 1 / 4 -> subsampled_at e d n m h x y = small_writes n d m (gamma2 * h) x y.
Proof.
  intros e d n m h x y Hn Hd Hh Hq. unfold subsampled_at, small_writes.
  set (w := gamma2 * h) in *. assert (Hw : 0 <= w) by (unfold w; pose proof gamma2_pos; nra).
  assert (C : flat_map (fun a => flat_map (fun b =>
              if inside n (dither_pixel n d w x a) && inside n (dither_pixel n d w y b)
              then [([dither_pixel n d w x a; dither_pixel n d w y b], m * dithered n d a b)] else [])
              (zrange 0 (2 * d))) (zrange 0 (2 * d)) = crumb_writes n d m w x y).
  { unfold crumb_writes. apply flat_map_ext. intro a. apply flat_map_ext. intro b.
    rewrite !dither_pixel_crumb, dithered_fraction by auto. cbv zeta. destruct (_ && _); [|reflexivity].
    do 2 f_equal. ring. }
  destruct (misses n (floor (IZR n * x)) (trunc (1 + w * IZR n)) || misses n (floor (IZR n * y)) (trunc (1 + w * IZR n))) eqn:M.
  - assert (U : whole n w x y = false).
    { unfold whole. apply orb_true_iff in M. destruct M as [M|M]; apply misses_not_unit in M; auto; rewrite M, ?andb_false_r; reflexivity. }
    rewrite U. symmetry. unfold crumb_writes. apply flat_map_all_nil. intros a Ha. apply flat_map_all_nil. intros b Hb.
    apply In_zrange in Ha, Hb. cbv zeta. unfold crumb_pixel. rewrite !inside_unit by auto.
    apply orb_true_iff in M. destruct M as [M|M].
    + rewrite (missed_crumbs n d w x a) by auto. reflexivity.
    + rewrite (missed_crumbs n d w y b) by auto. rewrite andb_false_r. reflexivity.
  - destruct (Rle_dec w (/ 4 * (1 / IZR n))) as [L|L]; [|exfalso; apply L, quarter; auto].
    cbv zeta. unfold whole. rewrite !clear_model, <- !(inside_unit n) by auto.
    match goal with |- (if ?b then _ else _) = _ => set (B := b) end.
    match goal with |- _ = (if ?b then _ else _) => set (B' := b) end.
    assert (BB : B = B').
    { unfold B, B'. destruct (inside n (floor (IZR n * x))), (inside n (floor (IZR n * y))); cbn [andb]; rewrite ?andb_false_r; auto.
      rewrite andb_true_r, <- negb_orb, !orb_assoc. reflexivity. }
    rewrite BB. destruct B'; [reflexivity|exact C].
Qed.

Lemma subsampled_wide : forall e d n m h x y, (1 <= n)%Z ->
  ~ gamma2 * h * IZR n <= 1 / 4 -> subsampled_at e d n m h x y = wide_writes e n m (gamma2 * h) x y.
Proof.
  intros e d n m h x y Hn Hq. unfold subsampled_at, wide_writes. cbv zeta. destruct (_ || _); [reflexivity|].
  destruct (Rle_dec _ _) as [L|L]; [exfalso; apply Hq, quarter; auto|]. reflexivity.
Qed.

Definition sampled (e d n : Z) (m w x y : R) (i j : Z) : R :=
  if Rle_dec (w * IZR n) (1 / 4)
  then (if whole n w x y then (if in_pixelb n i x && in_pixelb n j y then m * (IZR n * IZR n) else 0)
        else crumbs n d m w x y i j)
  else m * (kmean n (sample_factor e n w) w x y i j / (IZR (sample_factor e n w) * IZR (sample_factor e n w))).

Lemma subsampled_at_value : forall e d n m h x y i j, (1 <= n)%Z -> (1 <= d)%Z -> 0 <= h ->
  (0 <= i < n)%Z -> (0 <= j < n)%Z ->
  value_at [i; j] (subsampled_at e d n m h x y) = sampled e d n m (gamma2 * h) x y i j.
Proof.
  intros e d n m h x y i j Hn Hd Hh Hi Hj. unfold sampled. pose proof (n_pos n Hn).
  destruct (Rle_dec (gamma2 * h * IZR n) (1 / 4)) as [L|L].
  - rewrite subsampled_small by auto. unfold small_writes. destruct (whole _ _ _ _).
    + rewrite value_at_one, cell2_eqb, !in_pixelb_floor. reflexivity.
    + apply crumb_writes_value; auto.
  - rewrite subsampled_wide by auto. apply wide_value; auto. nra.
Qed.

Lemma left_out_crumb : forall d box x w a b, (1 <= d)%Z -> 0 <= box -> 0 <= w -> wrapped box x -> fits box w ->
  left_out box a -> (0 <= b < 2 * d)%Z -> unitb (crumb d w (x + IZR a * box) b) = false.
Proof.
  intros d box x w a b Hd Hb Hw Hx Hf (Hne & Ha) Hb'. destruct Hx as [Hx|Hx]; [contradiction|].
  destruct Hf as [Hf|Hf]; [contradiction|]. assert (Hp : 0 < box) by lra.
  pose proof (crumb_near d w (x + IZR a * box) b Hd Hw Hb') as C.
  assert (U : crumb d w (x + IZR a * box) b < x + IZR a * box + box).
  { destruct (Rle_lt_or_eq_dec 0 w Hw) as [Hw'|Hw']; [pose proof (crumb_upper d w (x + IZR a * box) b Hd Hw' Hb')|]; lra. }
  set (c := crumb d w (x + IZR a * box) b) in *.
  pose proof (ceil_spec (1 / box)) as Cc. assert (EE : 1 / box * box = 1) by (field; lra).
  unfold unitb. destruct (Rle_dec 0 c) as [L|L]; [|reflexivity]. destruct (Rlt_dec c 1) as [L'|L']; [|reflexivity]. exfalso.
  assert (D : (a <= -2 \/ ceil (1 / box) + 1 <= a)%Z) by lia. destruct D as [D|D]; apply IZR_le in D.
  - nra.
  - rewrite plus_IZR in D. assert (1 / box + 1 <= IZR a) by lra.
    assert ((1 / box + 1) * box <= IZR a * box) by (apply Rmult_le_compat_r; lra). lra.
Qed.

Lemma sampled_left_x : forall e d n m w bx x a v i j, (1 <= n)%Z -> (1 <= d)%Z -> 0 <= w ->
  (0 <= i < n)%Z -> (0 <= j < n)%Z -> 0 <= bx -> wrapped bx x -> fits bx w -> left_out bx a ->
  sampled e d n m w (x + IZR a * bx) v i j = 0.
Proof.
  intros e d n m w bx x a v i j Hn Hd Hw Hi Hj Hb Hx Hf Ho. unfold sampled. pose proof (n_pos n Hn).
  destruct (Rle_dec _ _) as [L|L].
  - unfold whole. rewrite left_out_unit by auto. cbn [andb]. unfold crumbs. apply square_sum_zero. intros b c Hb' _.
    rewrite (in_unit n i); auto. apply left_out_crumb; auto.
  - rewrite kmean_far; [unfold Rdiv; ring|nra|]. left. intros b Hb'. destruct (point_bounds n _ i b Hi Hb') as (_ & B).
    apply left_out_far; auto; lra.
Qed.

Lemma sampled_left_y : forall e d n m w by_ y b u i j, (1 <= n)%Z -> (1 <= d)%Z -> 0 <= w ->
  (0 <= i < n)%Z -> (0 <= j < n)%Z -> 0 <= by_ -> wrapped by_ y -> fits by_ w -> left_out by_ b ->
  sampled e d n m w u (y + IZR b * by_) i j = 0.
Proof.
  intros e d n m w by_ y b u i j Hn Hd Hw Hi Hj Hb Hx Hf Ho. unfold sampled. pose proof (n_pos n Hn).
  destruct (Rle_dec _ _) as [L|L].
  - unfold whole. rewrite (left_out_unit by_) by auto. rewrite andb_false_r. cbn [andb].
    unfold crumbs. apply square_sum_zero. intros c a _ Ha'.
    rewrite (in_unit n j); auto; [rewrite andb_false_r; reflexivity|]. apply left_out_crumb; auto.
  - rewrite kmean_far; [unfold Rdiv; ring|nra|]. right. intros a Ha'. destruct (point_bounds n _ j a Hj Ha') as (_ & B).
    apply left_out_far; auto; lra.
Qed.

Lemma sampled_spec : forall e d n f p x y i j, (1 <= n)%Z -> (1 <= e)%Z -> 0 <= p_h p ->
  enough_points e n (width2 p) (f p) ->
  sampled e d n (p_m p) (gamma2 * p_h p) x y i j = sampled2 n d f p x y i j.
Proof.
  intros e d n f p x y i j Hn He Hh Hf. unfold sampled, sampled2, whole, crumbs2, crumbs. change (gamma2 * p_h p) with (width2 p).
  destruct (Rle_dec _ _) as [L|L]; [reflexivity|].
  rewrite (sample_factor_spec e n (width2 p) (f p)) by (auto; apply width2_nonneg; auto).
  unfold mean2, kmean. do 2 f_equal. apply square_sum_ext. intros a b _ _. pose proof (n_pos n Hn).
  apply kernel2_W2; [nra|apply dist2_nonneg].
Qed.

(** * Mass *)

Definition copy_total (d n : Z) (m w x y : R) : R :=
  if whole n w x y then m * (IZR n * IZR n) else spills n d m w x y.

Lemma small_total : forall e d n m h x y, (1 <= n)%Z -> (1 <= d)%Z -> 0 <= h -> gamma2 * h * IZR n <= 1 / 4 ->
  sumR (map snd (subsampled_at e d n m h x y)) = copy_total d n m (gamma2 * h) x y.
Proof.
  intros e d n m h x y Hn Hd Hh Hq. rewrite subsampled_small by auto. unfold small_writes, copy_total.
  destruct (whole _ _ _ _); [cbn [map snd]; rewrite sumR_cons, sumR_nil; lra|]. apply crumb_writes_total. exact Hn.
Qed.

Lemma spills_all : forall n d m w x y, (1 <= d)%Z -> 0 <= w ->
  (forall a, (0 <= a < 2 * d)%Z -> unitb (crumb d w x a) = true) ->
  (forall a, (0 <= a < 2 * d)%Z -> unitb (crumb d w y a) = true) ->
  spills n d m w x y = m * (IZR n * IZR n).
Proof.
  intros n d m w x y Hd Hw Hx Hy. unfold spills.
  transitivity (square_sum (2 * d) (fun a b => m * (IZR n * IZR n) * fraction d a b)).
  - apply square_sum_ext. intros a b Ha Hb. rewrite Hx, Hy by auto. reflexivity.
  - rewrite square_sum_scal, fractions_one by auto. ring.
Qed.

(** Strictly below [x + w] for a positive radius. *)
Lemma crumb_below : forall d w x a, (1 <= d)%Z -> 0 <= w -> (0 <= a < 2 * d)%Z -> x < 1 -> x + w <= 1 -> crumb d w x a < 1.
Proof.
  intros d w x a Hd Hw (H0 & H1) Hx Hxw. pose proof (n_pos d Hd) as P. apply IZR_le in H0. apply IZR_succ_le in H1. rewrite mult_IZR in H1.
  unfold crumb. set (q := IZR a / IZR d). assert (Q : q * IZR d = IZR a) by (unfold q; field; lra).
  assert (0 <= q < 2) by (split; nra). destruct (Rtotal_order w 0) as [N|[N|N]]; [lra|subst; lra|nra].
Qed.

Lemma crumbs_inside : forall d w x a, (1 <= d)%Z -> 0 <= w -> (0 <= a < 2 * d)%Z -> w <= x -> x < 1 -> x + w <= 1 ->
  unitb (crumb d w x a) = true.
Proof.
  intros d w x a Hd Hw Ha Hx Hx1 Hxw. pose proof (crumb_near d w x a Hd Hw Ha). pose proof (crumb_below d w x a Hd Hw Ha Hx1 Hxw).
  unfold unitb. destruct (Rle_dec 0 _); [|lra]. destruct (Rlt_dec _ 1); [reflexivity|lra].
Qed.

Lemma clear_lower : forall n w x, (1 <= n)%Z -> clear n w x = true -> unitb x = true -> w <= x.
Proof.
  intros n w x Hn C U. unfold clear, least in C. cbv zeta in C. rewrite <- (inside_unit n) in U by auto. apply inside_iff in U.
  destruct (Rle_dec w (x - IZR (floor (IZR n * x)) / IZR n)); [|discriminate].
  pose proof (n_pos n Hn). destruct U as (U & _). apply IZR_le in U.
  assert (0 <= IZR (floor (IZR n * x)) / IZR n) by (apply Rmult_le_pos; [lra|apply Rlt_le, Rinv_0_lt_compat; lra]). lra.
Qed.

(** Away from the upper edges a copy adds the same mass whichever way it is drawn. *)
Lemma copy_total_spills : forall d n m w x y, (1 <= n)%Z -> (1 <= d)%Z -> 0 <= w -> x < 1 -> y < 1 -> x + w <= 1 -> y + w <= 1 ->
  copy_total d n m w x y = spills n d m w x y.
Proof.
  intros d n m w x y Hn Hd Hw Hx Hy Hxw Hyw. unfold copy_total. destruct (whole n w x y) eqn:W; [|reflexivity].
  unfold whole in W. rewrite !andb_true_iff in W. destruct W as (((Ux & Uy) & Cx) & Cy).
  symmetry. apply spills_all; auto; intros a Ha; apply crumbs_inside; auto; apply (clear_lower n); auto.
Qed.

Lemma copy_total_out : forall d n m w x y, unitb x && unitb y = false -> copy_total d n m w x y = spills n d m w x y.
Proof. intros d n m w x y H. unfold copy_total, whole. rewrite H. reflexivity. Qed.

Definition ind (b : bool) : R := if b then 1 else 0.

Lemma spills_ind : forall n d m w x y, spills n d m w x y
  = square_sum (2 * d) (fun a b => ind (unitb (crumb d w x a)) * ind (unitb (crumb d w y b)) * (m * (IZR n * IZR n) * fraction d a b)).
Proof.
  intros. unfold spills. apply square_sum_ext. intros a b _ _.
  destruct (unitb (crumb d w x a)), (unitb (crumb d w y b)); cbn [ind andb]; ring.
Qed.

Lemma square_sum_plus : forall k f g, square_sum k (fun a b => f a b + g a b) = square_sum k f + square_sum k g.
Proof.
  intros k f g. unfold square_sum. rewrite <- sumR_plus. apply sumR_ext. intros a _. apply sumR_plus.
Qed.

Lemma crumb_shift : forall d w x a t, crumb d w (x + t) a = crumb d w x a + t.
Proof. intros. unfold crumb. ring. Qed.

Lemma wrap_once : forall c, -1 <= c < 2 -> ind (unitb (c + -1)) + ind (unitb (c + 0)) + ind (unitb (c + 1)) = 1.
Proof.
  intros c H. unfold unitb. repeat (destruct (Rle_dec _ _)); repeat (destruct (Rlt_dec _ _)); cbn [ind]; lra.
Qed.

Lemma spills_nonneg : forall n d m w x y, (1 <= d)%Z -> 0 <= m -> 0 <= spills n d m w x y.
Proof.
  intros n d m w x y Hd Hm. unfold spills. apply square_sum_nonneg. intros a b.
  pose proof (fraction_nonneg d a b Hd). pose proof (square_pos (IZR n)). destruct (_ && _); [|lra].
  apply Rmult_le_pos; [apply Rmult_le_pos; lra|lra].
Qed.

Lemma part_total : forall e d n p, (1 <= n)%Z -> (1 <= d)%Z -> tiny n p ->
  let w := width2 p in let t := copy_total d n (p_m p) w in
  sumR (map snd (subsampled_part e d n 1 1 p))
  = sumR (map (fun a => sumR (map (fun b => t (p_x p + IZR a) (p_y p + IZR b)) [-1; 0; 1]%Z)) [-1; 0; 1]%Z).
Proof.
  intros e d n p Hn Hd (Hh & Hq & Hx & Hy) w t. unfold subsampled_part, copies2.
  assert (E : shifts 1 = [-1; 0; 1]%Z).
  { unfold shifts. destruct (Req_EM_T 1 0); [lra|]. replace (ceil (1 / 1)) with 1%Z; [reflexivity|].
    symmetry. apply ceil_unique. lra. }
  rewrite E, sumR_map_flat_map. apply sumR_ext. intros a _. rewrite sumR_map_flat_map. apply sumR_ext. intros b _.
  rewrite small_total by auto. rewrite !Rmult_1_r. reflexivity.
Qed.

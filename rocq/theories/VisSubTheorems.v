(** C91: the pixels of the reference and the subsampled projections. *)
From Coq Require Import List ZArith Reals Bool Lia Lra Psatz Permutation.
From Verif Require Import Base BaseLemmas VisModel VisSpec VisSubSpec VisSumProofs VisProofs VisValueProofs VisSubProofs.
Import ListNotations.
Open Scope R_scope.

(** * Reference *)

Theorem C91_reference_pixels : forall n bx by_ ps N, (1 <= n)%Z -> 0 <= bx -> 0 <= by_ ->
  enough bx N -> enough by_ N -> (forall p, In p ps -> settled2 bx by_ p) ->
  exists img, reference n bx by_ ps = Ok img /\
    forall i j, (0 <= i < n)%Z -> (0 <= j < n)%Z ->
      img [i; j] = sum_copies2 bx by_ N ps (fun p x y => resolved2 n p x y i j).
Proof.
  intros n bx by_ ps N Hn Bx By Ex Ey Hs.
  assert (O : ok_writes (square n) (flat_map (reference_part n bx by_) ps)).
  { apply ok_flat_map. intros p _. apply reference_ok. }
  destruct (render_spec _ _ O) as (img & E & V). exists img. split; [exact E|].
  intros i j Hi Hj. rewrite V, value_at_flat_map. unfold sum_copies2. apply sumR_ext. intros p Hp.
  destruct (Hs p Hp) as (Hh & Wx & Wy & Fx & Fy).
  rewrite reference_part_value by auto.
  rewrite (tiles2 bx by_ N (fun x y => resolved n (p_m p) (gamma2 * p_h p) x y i j)); auto.
  - apply sumR_ext. intros a _. apply sumR_ext. intros b _. apply resolved_spec. exact Hn.
  - intros a v Ha. apply resolved_far; auto. left. pose proof (centre_bounds n i Hi). apply left_out_far; auto; lra.
  - intros b u Hb. apply resolved_far; auto. right. pose proof (centre_bounds n j Hj). apply left_out_far; auto; lra.
Qed.

(** If all kernels are at least two pixels wide the image is that of the fast projection. *)
Theorem C91_reference_as_fast : forall n bx by_ ps, (1 <= n)%Z -> 0 <= bx -> 0 <= by_ ->
  (forall p, In p ps -> settled2 bx by_ p /\ 2 <= width2 p * IZR n) ->
  exists a b, reference n bx by_ ps = Ok a /\ fast n bx by_ ps = Ok b /\ same_image (square n) a b.
Proof.
  intros n bx by_ ps Hn Bx By Hs.
  assert (O : ok_writes (square n) (flat_map (reference_part n bx by_) ps)).
  { apply ok_flat_map. intros p _. apply reference_ok. }
  destruct (render_spec _ _ O) as (a & Ea & Va).
  assert (O' : ok_writes (square n) (flat_map (fast_part n bx by_) ps)).
  { apply ok_flat_map. intros p _. apply copies2_ok. intros. apply fast_at_ok. }
  destruct (render_spec _ _ O') as (b & Eb & Vb).
  exists a, b. split; [exact Ea|]. split; [exact Eb|]. intros c Hc.
  assert (Hij : exists i j, c = [i; j] /\ (0 <= i < n)%Z /\ (0 <= j < n)%Z).
  { unfold square in Hc. destruct c as [|i [|j [|k t]]]; cbn [in_bounds] in Hc; rewrite ?andb_false_r in Hc; try discriminate.
    rewrite !andb_true_iff, !Z.leb_le, !Z.ltb_lt in Hc. exists i, j. split; [reflexivity|]. lia. }
  destruct Hij as (i & j & -> & Hi & Hj). rewrite Va, Vb, !value_at_flat_map. apply sumR_ext. intros p Hp.
  destruct (Hs p Hp) as ((Hh & _) & Hw). rewrite reference_part_value by auto. unfold fast_part. rewrite value_copies2.
  apply sumR_ext. intros u _. apply sumR_ext. intros v _. rewrite fast_at_value by auto.
  unfold resolved, contribution2. change (gamma2 * p_h p) with (width2 p).
  destruct (Rlt_dec (width2 p * IZR n) 2), (Rlt_dec (width2 p * IZR n) 1); (reflexivity || lra).
Qed.

(** Particles with kernels narrower than two pixels leave no trace. *)
Theorem C91_reference_unresolved : forall n bx by_ ps, (1 <= n)%Z ->
  (forall p, In p ps -> 0 <= p_h p /\ width2 p * IZR n < 2) ->
  exists img, reference n bx by_ ps = Ok img /\ forall i j, (0 <= i < n)%Z -> (0 <= j < n)%Z -> img [i; j] = 0.
Proof.
  intros n bx by_ ps Hn Hs.
  assert (O : ok_writes (square n) (flat_map (reference_part n bx by_) ps)).
  { apply ok_flat_map. intros p _. apply reference_ok. }
  destruct (render_spec _ _ O) as (img & E & V). exists img. split; [exact E|]. intros i j Hi Hj.
  rewrite V, value_at_flat_map. apply sumR_zero. intros p Hp. destruct (Hs p Hp) as (Hh & Hw).
  rewrite reference_part_value by auto. apply sumR_zero. intros a _. apply sumR_zero. intros b _.
  unfold resolved. change (gamma2 * p_h p) with (width2 p). destruct (Rlt_dec _ 2); [reflexivity|contradiction].
Qed.

Example C91_reference_case : let p := mkpart (1 / 2) (1 / 2) 0 1 (25 / 100 / gamma2) in
  settled2 1 1 p /\ 2 <= width2 p * 10 /\ 0 < resolved2 10 p (1 / 2) (1 / 2) 5 5.
Proof.
  cbv zeta.
  assert (Ew : width2 (mkpart (1 / 2) (1 / 2) 0 1 (25 / 100 / gamma2)) = 25 / 100).
  { unfold width2, gamma2. cbn [p_h]. field. }
  split; [|split].
  - unfold settled2, wrapped, fits. rewrite Ew. cbn [p_x p_y p_h]. unfold gamma2.
    split; [lra|]. repeat split; right; lra.
  - rewrite Ew. lra.
  - unfold resolved2. rewrite Ew. destruct (Rlt_dec (25 / 100 * 10) 2); [lra|]. cbn [p_m].
    rewrite Rmult_1_l. rewrite <- kernel2_W2; [|lra|apply dist2_nonneg].
    apply kernel2_pos; [lra|apply dist2_nonneg|]. unfold dist2, centre.
    apply (Rle_lt_trans _ (sqrt (1 / 25))).
    + apply sqrt_le_1_alt. lra.
    + replace (1 / 25) with (1 / 5 * (1 / 5)) by lra. rewrite sqrt_square; lra.
Qed.

(** * Subsampled *)

Theorem C91_subsampled_pixels : forall e d n bx by_ ps N f, (1 <= n)%Z -> (1 <= e)%Z -> (1 <= d)%Z ->
  0 <= bx -> 0 <= by_ -> enough bx N -> enough by_ N ->
  (forall p, In p ps -> settled2 bx by_ p /\ enough_points e n (width2 p) (f p)) ->
  exists img, subsampled e d n bx by_ ps = Ok img /\
    forall i j, (0 <= i < n)%Z -> (0 <= j < n)%Z ->
      img [i; j] = sum_copies2 bx by_ N ps (fun p x y => sampled2 n d f p x y i j).
Proof.
  intros e d n bx by_ ps N f Hn He Hd Bx By Ex Ey Hs.
  assert (O : ok_writes (square n) (flat_map (subsampled_part e d n bx by_) ps)).
  { apply ok_flat_map. intros p _. apply copies2_ok. intros. apply subsampled_at_ok. }
  destruct (render_spec _ _ O) as (img & E & V). exists img. split; [exact E|].
  intros i j Hi Hj. rewrite V, value_at_flat_map. unfold sum_copies2. apply sumR_ext. intros p Hp.
  destruct (Hs p Hp) as ((Hh & Wx & Wy & Fx & Fy) & Hf).
  assert (Hw : 0 <= gamma2 * p_h p) by (pose proof gamma2_pos; nra).
  unfold subsampled_part. rewrite value_copies2.
  transitivity (sumR (map (fun a => sumR (map (fun b =>
    sampled e d n (p_m p) (gamma2 * p_h p) (p_x p + IZR a * bx) (p_y p + IZR b * by_) i j) (shifts by_))) (shifts bx))).
  { apply sumR_ext. intros a _. apply sumR_ext. intros b _. apply subsampled_at_value; auto. }
  rewrite (tiles2 bx by_ N (fun x y => sampled e d n (p_m p) (gamma2 * p_h p) x y i j)); auto.
  - apply sumR_ext. intros a _. apply sumR_ext. intros b _. apply sampled_spec; auto.
  - intros a v Ha. apply sampled_left_x; auto.
  - intros b u Hb. apply sampled_left_y; auto.
Qed.

(** There is exactly one number of points. *)
Theorem C91_points : forall e n w, (1 <= n)%Z -> (1 <= e)%Z -> 0 <= w ->
  exists f, enough_points e n w f /\ (2 <= f)%Z /\ forall g, enough_points e n w g -> g = f.
Proof.
  intros e n w Hn He Hw. pose proof (n_pos n Hn). pose proof (n_pos e He). assert (D : 1 <= 1 + w * IZR n) by nra.
  set (q := IZR e / (1 + w * IZR n)).
  assert (Q : q * (1 + w * IZR n) = IZR e) by (unfold q; field; lra).
  pose proof (ceil_spec q) as C.
  assert (P : enough_points e n w (2 * ceil q)). { exists (ceil q). split; [reflexivity|]. split; nra. }
  exists (2 * ceil q)%Z. split; [exact P|]. split.
  - assert (0 < ceil q)%Z; [|lia]. apply IZR_lt_lt. nra.
  - intros g Hg. rewrite <- (sample_factor_spec e n w g), <- (sample_factor_spec e n w (2 * ceil q)); auto.
Qed.

(** The pieces of a cut kernel add up to the whole. *)
Theorem C91_fractions : forall d, (1 <= d)%Z ->
  square_sum (2 * d) (fraction d) = 1 /\ forall a b, 0 <= fraction d a b.
Proof. intros d Hd. split; [apply fractions_one; exact Hd|]. intros. apply fraction_nonneg. exact Hd. Qed.

(** Mass of a tiny particle whose kernel is within the image, without periodicity. *)
Theorem C91_tiny_mass : forall e d n p, (1 <= n)%Z -> (1 <= d)%Z -> tiny n p ->
  width2 p <= p_x p -> p_x p + width2 p <= 1 -> width2 p <= p_y p -> p_y p + width2 p <= 1 ->
  exists img, subsampled e d n 0 0 [p] = Ok img /\ total2 n img * (1 / IZR n * (1 / IZR n)) = p_m p.
Proof.
  intros e d n p Hn Hd (Hh & Hq & Hx & Hy) X0 X1 Y0 Y1. pose proof (n_pos n Hn) as Np.
  assert (O : ok_writes (square n) (flat_map (subsampled_part e d n 0 0) [p])).
  { apply ok_flat_map. intros q _. apply copies2_ok. intros. apply subsampled_at_ok. }
  destruct (render_spec _ _ O) as (img & E & _). exists img. split; [exact E|].
  rewrite (total2_render n _ img E).
  assert (F : flat_map (subsampled_part e d n 0 0) [p] = subsampled_at e d n (p_m p) (p_h p) (p_x p) (p_y p)).
  { cbn [flat_map]. rewrite app_nil_r. unfold subsampled_part, copies2, shifts.
    destruct (Req_EM_T 0 0); [|contradiction]. change (zrange 0 1) with [0%Z]. cbn [flat_map].
    rewrite !app_nil_r. f_equal; ring. }
  pose proof (width2_nonneg p Hh) as Hw.
  rewrite F, small_total by auto. change (gamma2 * p_h p) with (width2 p).
  rewrite copy_total_spills by (auto; lra). rewrite spills_all; auto; [field; lra| |];
    intros a Ha; apply crumbs_inside; auto; lra.
Qed.

(** In a periodic box of the size of the image the mass of tiny particles is conserved if
    they are not within a kernel radius of the upper edges. *)
Theorem C91_full_box : forall e d n ps, (1 <= n)%Z -> (1 <= d)%Z ->
  (forall p, In p ps -> tiny n p /\ p_x p + width2 p <= 1 /\ p_y p + width2 p <= 1) ->
  exists img, subsampled e d n 1 1 ps = Ok img /\ total2 n img * (1 / IZR n * (1 / IZR n)) = sumR (map p_m ps).
Proof.
  intros e d n ps Hn Hd Hs. pose proof (n_pos n Hn) as Np.
  assert (O : ok_writes (square n) (flat_map (subsampled_part e d n 1 1) ps)).
  { apply ok_flat_map. intros q _. apply copies2_ok. intros. apply subsampled_at_ok. }
  destruct (render_spec _ _ O) as (img & E & _). exists img. split; [exact E|].
  rewrite (total2_render n _ img E), sumR_map_flat_map, <- sumR_scal_r. apply sumR_ext. intros p Hp.
  destruct (Hs p Hp) as (T & X1 & Y1). pose proof T as T'. destruct T' as (Hh & Hq & Hx & Hy).
  pose proof (width2_nonneg p Hh) as Hw. rewrite part_total by auto. set (w := width2 p) in *.
  set (c := p_m p * (IZR n * IZR n)). set (x := p_x p) in *. set (y := p_y p) in *.
  assert (A : forall a b, In a [-1; 0; 1]%Z -> In b [-1; 0; 1]%Z ->
     copy_total d n (p_m p) w (x + IZR a) (y + IZR b) = spills n d (p_m p) w (x + IZR a) (y + IZR b)).
  { intros a b Ha Hb. destruct (unitb (x + IZR a) && unitb (y + IZR b)) eqn:U; [|apply copy_total_out; exact U].
    apply andb_true_iff in U. destruct U as (Ux & Uy).
    pose proof (unit_once x a Hx) as Oa. pose proof (unit_once y b Hy) as Ob. rewrite Rmult_1_r in Oa, Ob.
    rewrite Oa in Ux. rewrite Ob in Uy. apply Z.eqb_eq in Ux, Uy. subst a b. rewrite !Rplus_0_r.
    apply copy_total_spills; auto; lra. }
  transitivity (sumR (map (fun a => sumR (map (fun b => spills n d (p_m p) w (x + IZR a) (y + IZR b)) [-1; 0; 1]%Z)) [-1; 0; 1]%Z)
                * (1 / IZR n * (1 / IZR n))).
  { f_equal. apply sumR_ext. intros a Ha. apply sumR_ext. intros b Hb. apply A; auto. }
  cbn [map]. rewrite !sumR_cons, !sumR_nil, !spills_ind, !Rplus_0_r, <- !square_sum_plus.
  transitivity (square_sum (2 * d) (fun a b => c * fraction d a b) * (1 / IZR n * (1 / IZR n))).
  - f_equal. apply square_sum_ext. intros a b Ha Hb. rewrite !crumb_shift.
    assert (Xc : -1 <= crumb d w x a < 2).
    { pose proof (crumb_near d w x a Hd Hw Ha). assert (w <= 1 / 4) by nra. lra. }
    assert (Yc : -1 <= crumb d w y b < 2).
    { pose proof (crumb_near d w y b Hd Hw Hb). assert (w <= 1 / 4) by nra. lra. }
    pose proof (wrap_once _ Xc) as Ox. pose proof (wrap_once _ Yc) as Oy.
    rewrite !Rplus_0_r in Ox, Oy. fold c.
    set (x1 := ind (unitb (crumb d w x a + -1))) in *. set (x2 := ind (unitb (crumb d w x a))) in *.
    set (x3 := ind (unitb (crumb d w x a + 1))) in *. set (y1 := ind (unitb (crumb d w y b + -1))) in *.
    set (y2 := ind (unitb (crumb d w y b))) in *. set (y3 := ind (unitb (crumb d w y b + 1))) in *.
    transitivity ((x1 + x2 + x3) * (y1 + y2 + y3) * (c * fraction d a b)); [ring|rewrite Ox, Oy; ring].
  - rewrite square_sum_scal, fractions_one by auto. unfold c. field. lra.
Qed.

(** Just below the upper edge the mass is counted once in the last pixel and again, in
    part, on the other side of the box. *)
Theorem C91_counted_twice_refuted : forall e d n p, (2 <= n)%Z -> (3 <= d)%Z -> tiny n p -> 0 < width2 p -> 0 < p_m p ->
  1 - width2 p / 2 <= p_x p -> clear n (width2 p) (p_y p) = true ->
  exists img, subsampled e d n 1 1 [p] = Ok img /\ p_m p < total2 n img * (1 / IZR n * (1 / IZR n)).
Proof.
  intros e d n p Hn Hd T Wp Mp X Cy. assert (Hn1 : (1 <= n)%Z) by lia. assert (Hd1 : (1 <= d)%Z) by lia.
  assert (N2 : 2 <= IZR n) by (apply IZR_le in Hn; exact Hn). assert (D3 : 3 <= IZR d) by (apply IZR_le in Hd; exact Hd).
  assert (O : ok_writes (square n) (flat_map (subsampled_part e d n 1 1) [p])).
  { apply ok_flat_map. intros q _. apply copies2_ok. intros. apply subsampled_at_ok. }
  destruct (render_spec _ _ O) as (img & E & _). exists img. split; [exact E|].
  rewrite (total2_render n _ img E), sumR_map_flat_map. cbn [map]. rewrite sumR_cons, sumR_nil.
  rewrite part_total by auto. destruct T as (Hh & Hq & Hx & Hy). set (w := width2 p) in *.
  set (x := p_x p) in *. set (y := p_y p) in *. set (m := p_m p) in *.
  assert (W8 : w <= 1 / 8) by nra.
  assert (Z0 : forall a b, 0 <= copy_total d n m w (x + IZR a) (y + IZR b)).
  { intros a b. unfold copy_total. pose proof (square_pos (IZR n)). destruct (whole _ _ _ _); [apply Rmult_le_pos; lra|].
    apply spills_nonneg; auto. lra. }
  assert (Uy : unitb y = true) by (unfold unitb; destruct (Rle_dec 0 y); [|lra]; destruct (Rlt_dec y 1); [reflexivity|lra]).
  (* the copy in the image *)
  assert (T0 : copy_total d n m w x y = m * (IZR n * IZR n)).
  { unfold copy_total. replace (whole n w x y) with true; [reflexivity|]. symmetry. unfold whole. rewrite Uy, Cy.
    assert (Ux : unitb x = true) by (unfold unitb; destruct (Rle_dec 0 x); [|lra]; destruct (Rlt_dec x 1); [reflexivity|lra]).
    rewrite Ux. cbn [andb]. rewrite andb_true_r. unfold clear, least. cbv zeta.
    assert (Fl : floor (IZR n * x) = (n - 1)%Z). { apply floor_unique. rewrite minus_IZR. nra. }
    rewrite Fl, minus_IZR. set (q := / IZR n). assert (Q : IZR n * q = 1) by (unfold q; apply Rinv_r; lra).
    assert (Q2 : q <= / 2) by (unfold q; apply Rinv_le_contravar; lra).
    assert (Q0 : 0 < q) by (unfold q; apply Rinv_0_lt_compat; lra).
    replace ((IZR n - 1) / IZR n) with (1 - q) by (unfold Rdiv; fold q; rewrite Rmult_minus_distr_r, Q; ring).
    assert (4 * w <= q) by nra.
    destruct (Rle_dec w (x - (1 - q))); [|lra]. destruct (Rle_dec w (1 - (x - (1 - q)))); [reflexivity|lra]. }
  (* its copy below the lower edge *)
  assert (T1 : 0 < copy_total d n m w (x + -1) y).
  { assert (U : unitb (x + -1) = false) by (unfold unitb; destruct (Rle_dec 0 (x + -1)); [lra|reflexivity]).
    rewrite copy_total_out by (rewrite U; reflexivity).
    set (k := ((d + 1) / 2)%Z). assert (K : (d <= 2 * k <= d + 1)%Z). { unfold k. pose proof (Z.div_mod (d + 1) 2). pose proof (Z.mod_pos_bound (d + 1) 2). lia. }
    assert (KR : IZR d <= 2 * IZR k <= IZR d + 1). { destruct K as (K1 & K2). apply IZR_le in K1, K2. rewrite mult_IZR in K1, K2. rewrite plus_IZR in K2. lra. }
    assert (Sh : 0 < share d (d + k) d).
    { apply share_pos; auto. rewrite plus_IZR.
      replace (IZR d + IZR k + 1 / 2 - IZR d) with (IZR k + 1 / 2) by ring.
      replace (IZR d + 1 / 2 - IZR d) with (1 / 2) by ring. nra. }
    assert (Fr : 0 < fraction d (d + k) d) by (unfold fraction; apply Rdiv_lt_0_compat; [exact Sh|apply shares_pos; exact Hd1]).
    unfold spills. eapply Rlt_le_trans; [|apply (square_sum_ge (2 * d) _ (d + k) d)]; try lia.
    - cbv beta.
      assert (Cx' : unitb (crumb d w (x + -1) (d + k)) = true).
      { unfold crumb. rewrite plus_IZR. set (q := (IZR d + IZR k) / IZR d).
        assert (Q : q * IZR d = IZR d + IZR k) by (unfold q; field; lra).
        assert (3 / 2 <= q <= 2) by (split; nra).
        unfold unitb. destruct (Rle_dec 0 (x + -1 + (q - 1) * w)); [|nra]. destruct (Rlt_dec (x + -1 + (q - 1) * w) 1); [reflexivity|nra]. }
      assert (Cy' : unitb (crumb d w y d) = true).
      { unfold crumb. replace (IZR d / IZR d) with 1 by (field; lra). replace (y + (1 - 1) * w) with y by ring. exact Uy. }
      rewrite Cx', Cy'. cbn [andb]. apply Rmult_lt_0_compat; [|exact Fr]. apply Rmult_lt_0_compat; nra.
    - intros a b. pose proof (fraction_nonneg d a b Hd1). destruct (_ && _); [|lra].
      apply Rmult_le_pos; [|lra]. apply Rmult_le_pos; [lra|nra]. }
  cbn [map]. rewrite !sumR_cons, !sumR_nil. change (IZR 0) with 0. rewrite !Rplus_0_r.
  pose proof (Z0 (-1)%Z (-1)%Z) as P1. pose proof (Z0 (-1)%Z 1%Z) as P2. pose proof (Z0 0%Z (-1)%Z) as P3.
  pose proof (Z0 0%Z 1%Z) as P4. pose proof (Z0 1%Z (-1)%Z) as P5. pose proof (Z0 1%Z 0%Z) as P6. pose proof (Z0 1%Z 1%Z) as P7.
  change (IZR 0) with 0 in *. rewrite !Rplus_0_r in *. rewrite T0.
  apply (Rmult_lt_reg_r (IZR n * IZR n)); [nra|].
  match goal with |- _ < ?s * (1 / IZR n * (1 / IZR n)) * _ => replace (s * (1 / IZR n * (1 / IZR n)) * (IZR n * IZR n)) with s by (field; lra) end.
  lra.
Qed.

(** A quarter of a pixel wide, and just below the right side of the image. *)
Example C91_tiny_case : let p := mkpart (199 / 200) (1 / 4) 0 1 (2 / 100 / gamma2) in
  tiny 2 p /\ 0 < width2 p /\ 0 < p_m p /\ 1 - width2 p / 2 <= p_x p /\ clear 2 (width2 p) (p_y p) = true.
Proof.
  cbv zeta.
  assert (Ew : width2 (mkpart (199 / 200) (1 / 4) 0 1 (2 / 100 / gamma2)) = 2 / 100).
  { unfold width2, gamma2. cbn [p_h]. field. }
  unfold tiny. rewrite Ew. cbn [p_x p_y p_m p_h]. unfold gamma2. repeat split; try lra.
  unfold clear, least. cbv zeta. replace (floor (2 * (1 / 4))) with 0%Z by (symmetry; apply floor_unique; lra).
  destruct (Rle_dec _ _); [|lra]. destruct (Rle_dec _ _); [reflexivity|lra].
Qed.
Example C91_full_case : let p := mkpart (1 / 2) (1 / 200) 0 1 (2 / 100 / gamma2) in
  tiny 2 p /\ p_x p + width2 p <= 1 /\ p_y p + width2 p <= 1 /\ clear 2 (width2 p) (p_y p) = false.
Proof.
  cbv zeta.
  assert (Ew : width2 (mkpart (1 / 2) (1 / 200) 0 1 (2 / 100 / gamma2)) = 2 / 100).
  { unfold width2, gamma2. cbn [p_h]. field. }
  unfold tiny. rewrite Ew. cbn [p_x p_y p_m p_h]. unfold gamma2. repeat split; try lra.
  unfold clear, least. cbv zeta. replace (floor (2 * (1 / 200))) with 0%Z by (symmetry; apply floor_unique; lra).
  destruct (Rle_dec _ _); [lra|reflexivity].
Qed.
Example C91_points_case : enough_points 16 100 (2 / 100) 12.
Proof. exists 6%Z. split; [reflexivity|]. lra. Qed.

Print Assumptions C91_reference_pixels.
Print Assumptions C91_reference_as_fast.
Print Assumptions C91_reference_unresolved.
Print Assumptions C91_subsampled_pixels.
Print Assumptions C91_points.
Print Assumptions C91_fractions.
Print Assumptions C91_tiny_mass.
Print Assumptions C91_full_box.
Print Assumptions C91_counted_twice_refuted.

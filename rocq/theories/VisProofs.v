(** Kernels, windows, periodic copies and parallel images. *)
From Coq Require Import List ZArith Reals Bool Lia Lra Psatz Permutation.
From Verif Require Import Base BaseLemmas VisModel VisSpec VisSumProofs.
Import ListNotations.
Open Scope R_scope.

(** * Kernels *)

Lemma ratio_lt : forall r H, 0 < H -> (r * (1 / H) < 1 <-> r < H).
Proof.
  intros r H Hp. assert (E : H * (1 / H) = 1) by (field; lra).
  assert (0 < 1 / H) by (apply Rdiv_lt_0_compat; lra). split; intro L; nra.
Qed.

Lemma wendland_pos : forall r H, 0 < H -> 0 <= r -> r < H ->
  let q := r * (1 / H) in 0 < (1 - q) * (1 - q) * ((1 - q) * (1 - q)) * (1 + 4 * q).
Proof.
  intros r H Hp Hr Hl q. apply (proj2 (ratio_lt r H Hp)) in Hl. fold q in Hl.
  assert (0 <= q). { unfold q. apply Rmult_le_pos; [lra|]. apply Rlt_le, Rdiv_lt_0_compat; lra. }
  assert (0 < (1 - q) * (1 - q)) by nra. apply Rmult_lt_0_compat; nra.
Qed.

Lemma kernel2_zero : forall r H, 0 < H -> H <= r -> kernel2 r H = 0.
Proof.
  intros r H Hp Hr. unfold kernel2. destruct (Rlt_dec (r * (1 / H)) 1) as [L|L]; [|reflexivity].
  apply (proj1 (ratio_lt r H Hp)) in L. lra.
Qed.

Lemma kernel2_pos : forall r H, 0 < H -> 0 <= r -> r < H -> 0 < kernel2 r H.
Proof.
  intros r H Hp Hr Hl. unfold kernel2. destruct (Rlt_dec (r * (1 / H)) 1) as [L|L].
  - pose proof (wendland_pos r H Hp Hr Hl) as W. cbv zeta in *. assert (0 < 1 / H) by (apply Rdiv_lt_0_compat; lra).
    rewrite Rmax_left by lra. apply Rmult_lt_0_compat; [exact W|]. unfold constant2.
    apply Rmult_lt_0_compat; [|lra]. apply Rmult_lt_0_compat; lra.
  - exfalso. apply L. apply (proj2 (ratio_lt r H Hp)). exact Hl.
Qed.

Lemma kernel2_nonneg : forall r H, 0 < H -> 0 <= r -> 0 <= kernel2 r H.
Proof.
  intros r H Hp Hr. destruct (Rlt_dec r H) as [L|L].
  - apply Rlt_le, kernel2_pos; auto.
  - rewrite kernel2_zero; lra.
Qed.

Lemma kernel3_zero : forall r H, 0 < H -> H <= r -> kernel3 r H = 0.
Proof.
  intros r H Hp Hr. unfold kernel3. destruct (Rlt_dec (r * (1 / H)) 1) as [L|L]; [|reflexivity].
  apply (proj1 (ratio_lt r H Hp)) in L. lra.
Qed.

Lemma kernel3_pos : forall r H, 0 < H -> 0 <= r -> r < H -> 0 < kernel3 r H.
Proof.
  intros r H Hp Hr Hl. unfold kernel3. destruct (Rlt_dec (r * (1 / H)) 1) as [L|L].
  - pose proof (wendland_pos r H Hp Hr Hl) as W. cbv zeta in *. assert (0 < 1 / H) by (apply Rdiv_lt_0_compat; lra).
    rewrite Rmax_left by lra. apply Rmult_lt_0_compat; [exact W|]. unfold constant3.
    apply Rmult_lt_0_compat; [|lra]. apply Rmult_lt_0_compat; [|lra]. apply Rmult_lt_0_compat; lra.
  - exfalso. apply L. apply (proj2 (ratio_lt r H Hp)). exact Hl.
Qed.

Lemma kernel3_nonneg : forall r H, 0 < H -> 0 <= r -> 0 <= kernel3 r H.
Proof.
  intros r H Hp Hr. destruct (Rlt_dec r H) as [L|L].
  - apply Rlt_le, kernel3_pos; auto.
  - rewrite kernel3_zero; lra.
Qed.

Lemma gamma2_pos : 0 < gamma2. Proof. unfold gamma2. lra. Qed.
Lemma gamma3_pos : 0 < gamma3. Proof. unfold gamma3. lra. Qed.

(** The kernels of the backends are the Wendland kernels. *)
Lemma kernel2_W2 : forall r H, 0 < H -> 0 <= r -> kernel2 r H = W2 r H.
Proof.
  intros r H Hp Hr. unfold W2, wendland. destruct (Rlt_dec r H) as [L|L].
  - pose proof (wendland_pos r H Hp Hr L) as W. unfold kernel2. cbv zeta in *.
    destruct (Rlt_dec (r * (1 / H)) 1) as [M|M]; [|exfalso; apply M, (ratio_lt r H Hp); exact L].
    rewrite Rmax_left by lra. unfold constant2. field. lra.
  - rewrite kernel2_zero by lra. ring.
Qed.

Lemma kernel3_W3 : forall r H, 0 < H -> 0 <= r -> kernel3 r H = W3 r H.
Proof.
  intros r H Hp Hr. unfold W3, wendland. destruct (Rlt_dec r H) as [L|L].
  - pose proof (wendland_pos r H Hp Hr L) as W. unfold kernel3. cbv zeta in *.
    destruct (Rlt_dec (r * (1 / H)) 1) as [M|M]; [|exfalso; apply M, (ratio_lt r H Hp); exact L].
    rewrite Rmax_left by lra. unfold constant3. field. lra.
  - rewrite kernel3_zero by lra. ring.
Qed.

(** The distance is at least each of its components. *)
Lemma sqrt_ge : forall w s, 0 <= w -> w * w <= s -> w <= sqrt s.
Proof. intros w s Hw H. rewrite <- (sqrt_square w) by auto. apply sqrt_le_1_alt. exact H. Qed.

Definition apart (w d : R) : Prop := w <= d \/ w <= - d.

Lemma apart_square : forall w d, 0 <= w -> apart w d -> w * w <= d * d.
Proof. intros w d Hw [H|H]; nra. Qed.

Lemma square_pos : forall d, 0 <= d * d.
Proof. intro d. nra. Qed.

(** * Pixels *)

Lemma offset_centre : forall n i x, (1 <= n)%Z -> offset n i x = centre n i - x.
Proof. intros n i x H. unfold offset, centre. assert (1 <= IZR n) by (apply IZR_le in H; exact H). field. lra. Qed.

Lemma n_pos : forall n, (1 <= n)%Z -> 1 <= IZR n.
Proof. intros n H. apply IZR_le in H. exact H. Qed.

(** In units of pixels. *)
Lemma offset_scaled : forall n i x, (1 <= n)%Z -> IZR n * offset n i x = IZR i + / 2 - IZR n * x.
Proof. intros n i x H. apply n_pos in H. unfold offset. field. lra. Qed.

Lemma apart_scaled : forall n w d, (1 <= n)%Z -> apart (w * IZR n) (IZR n * d) -> apart w d.
Proof. intros n w d Hn [H|H]; apply n_pos in Hn; [left|right]; nra. Qed.

Lemma centre_bounds : forall n i, (0 <= i < n)%Z -> 0 < centre n i < 1.
Proof.
  intros n i (H0 & H1). apply IZR_le in H0. apply IZR_succ_le in H1. unfold centre.
  split; [apply Rdiv_lt_0_compat; lra|]. apply (Rmult_lt_reg_r (IZR n)); [lra|]. unfold Rdiv at 1.
  rewrite Rmult_assoc, Rinv_l; lra.
Qed.

Lemma in_pixelb_floor : forall n i x, in_pixelb n i x = (floor (IZR n * x) =? i)%Z.
Proof.
  intros n i x. unfold in_pixelb. pose proof (floor_spec (IZR n * x)) as F.
  destruct (Rle_dec (IZR i) (IZR n * x)) as [L|L].
  - destruct (Rlt_dec (IZR n * x) (IZR i + 1)) as [L'|L'].
    + symmetry. apply Z.eqb_eq. apply floor_unique. lra.
    + symmetry. apply Z.eqb_neq. intros <-. lra.
  - symmetry. apply Z.eqb_neq. intros <-. lra.
Qed.

Lemma in_pixelb_iff : forall n i x, in_pixelb n i x = true <-> in_pixel n i x.
Proof.
  intros n i x. unfold in_pixelb, in_pixel. destruct (Rle_dec (IZR i) (IZR n * x)), (Rlt_dec (IZR n * x) (IZR i + 1));
    split; intros; try discriminate; try lra; auto.
Qed.

(** The number of cells spanned. *)
Lemma spanned : forall w n, (1 <= n)%Z -> 0 <= w ->
  let s := trunc (1 + w * IZR n) in (1 <= s)%Z /\ IZR s - 1 <= w * IZR n < IZR s.
Proof.
  intros w n Hn Hw s. apply n_pos in Hn. assert (0 <= w * IZR n) by nra. unfold s.
  rewrite trunc_floor by lra. pose proof (floor_spec (1 + w * IZR n)).
  split; [apply floor_le; lra|lra].
Qed.

(** Outside the window the pixel centres are further away than the kernel reaches. *)
Lemma out_window : forall n x w s i, (1 <= n)%Z -> w * IZR n < IZR s ->
  let c := floor (IZR n * x) in ~ (c - s <= i < c + s + 1)%Z -> apart w (offset n i x).
Proof.
  intros n x w s i Hn Hw c Hi. apply apart_scaled with n; auto. rewrite offset_scaled by auto.
  pose proof (floor_spec (IZR n * x)) as F. fold c in F.
  assert (D : (i < c - s \/ c + s < i)%Z) by lia. destruct D as [D|D].
  - right. apply IZR_succ_le in D. rewrite minus_IZR in D. lra.
  - left. apply IZR_succ_le in D. rewrite plus_IZR in D. lra.
Qed.

Lemma in_window : forall n lo hi i, (0 <= i < n)%Z ->
  within (Z.max 0 lo) (Z.min hi (n - 1 + 1)) i = within lo hi i.
Proof.
  intros n lo hi i Hi. unfold within.
  destruct (Z.leb_spec (Z.max 0 lo) i), (Z.leb_spec lo i), (Z.ltb_spec i (Z.min hi (n - 1 + 1))), (Z.ltb_spec i hi);
    cbn; auto; lia.
Qed.

Lemma misses_out : forall n c s i, misses n c s = true -> (0 <= i < n)%Z -> ~ (c - s <= i < c + s + 1)%Z.
Proof. intros n c s i H Hi. unfold misses in H. rewrite orb_true_iff, !Z.ltb_lt in H. lia. Qed.

Lemma within_false : forall a b i, within a b i = false -> ~ (a <= i < b)%Z.
Proof. intros a b i H X. apply within_iff in X. congruence. Qed.

(** * Projections *)

Definition contribution2 (n : Z) (m w x y : R) (i j : Z) : R :=
  if Rlt_dec (w * IZR n) 1
  then (if in_pixelb n i x && in_pixelb n j y then m * (IZR n * IZR n) else 0)
  else m * kernel2 (dist2 (centre n i) (centre n j) x y) w.

Lemma kernel2_far : forall n i j x y w, (1 <= n)%Z -> 0 < w ->
  apart w (offset n i x) \/ apart w (offset n j y) ->
  kernel2 (dist2 (centre n i) (centre n j) x y) w = 0.
Proof.
  intros n i j x y w Hn Hw H. apply kernel2_zero; auto. unfold dist2. rewrite <- !offset_centre by auto.
  apply sqrt_ge; [lra|]. pose proof (square_pos (offset n i x)). pose proof (square_pos (offset n j y)).
  destruct H as [H|H]; apply apart_square in H; lra.
Qed.

Lemma fast_at_value : forall n m h x y i j, (1 <= n)%Z -> 0 <= h -> (0 <= i < n)%Z -> (0 <= j < n)%Z ->
  value_at [i; j] (fast_at n m h x y) = contribution2 n m (gamma2 * h) x y i j.
Proof.
  intros n m h x y i j Hn Hh Hi Hj. unfold fast_at, contribution2.
  set (w := gamma2 * h). assert (Hw : 0 <= w) by (unfold w; pose proof gamma2_pos; nra).
  destruct (spanned w n Hn Hw) as (S1 & S2). set (s := trunc (1 + w * IZR n)) in *.
  set (cx := floor (IZR n * x)). set (cy := floor (IZR n * y)).
  pose proof (n_pos n Hn) as Np.
  destruct (Rlt_dec (w * IZR n) 1) as [L|L].
  - assert (s = 1)%Z. { assert (s <= 1)%Z; [|lia]. apply IZR_le_lt. lra. }
    assert (E : value_at [i; j] (if inside n cx && inside n cy then [([cx; cy], m * (IZR n * IZR n))] else [])
                = if in_pixelb n i x && in_pixelb n j y then m * (IZR n * IZR n) else 0).
    { rewrite !in_pixelb_floor. fold cx cy. destruct (inside n cx && inside n cy) eqn:I.
      - rewrite value_at_one, cell2_eqb. reflexivity.
      - change (0 = if (cx =? i)%Z && (cy =? j)%Z then m * (IZR n * IZR n) else 0).
        destruct (Z.eqb_spec cx i), (Z.eqb_spec cy j); cbn; auto. subst i j. unfold inside in I.
        rewrite andb_false_iff, !andb_false_iff, !Z.leb_gt in I. lia. }
    destruct (misses n cx s || misses n cy s) eqn:M.
    + rewrite !in_pixelb_floor. fold cx cy. change (0 = if (cx =? i)%Z && (cy =? j)%Z then m * (IZR n * IZR n) else 0).
      destruct (Z.eqb_spec cx i), (Z.eqb_spec cy j); cbn; auto. subst i j.
      apply orb_true_iff in M. destruct M as [M|M].
      * exfalso. apply (misses_out _ _ _ cx M Hi). lia.
      * exfalso. apply (misses_out _ _ _ cy M Hj). lia.
    + replace (s <=? 1)%Z with true by (symmetry; apply Z.leb_le; lia). exact E.
  - assert (2 <= s)%Z. { assert (1 < s)%Z; [|lia]. apply IZR_lt_lt. lra. }
    assert (Wp : 0 < w) by nra.
    destruct (misses n cx s || misses n cy s) eqn:M.
    + rewrite (kernel2_far n); auto. { cbn. unfold value_at. cbn. lra. }
      apply orb_true_iff in M. destruct M as [M|M]; [left|right];
        (eapply out_window; [auto|exact (proj2 S2)|]); eapply misses_out; eauto.
    + replace (s <=? 1)%Z with false by (symmetry; apply Z.leb_gt; lia).
      unfold window. rewrite value_spread2, !in_window by auto.
      destruct (within (cx - s) (cx + s + 1) i) eqn:Wi; [destruct (within (cy - s) (cy + s + 1) j) eqn:Wj|]; cbn [andb].
      * f_equal. unfold dist2. rewrite <- !offset_centre by auto. reflexivity.
      * rewrite (kernel2_far n); auto; [lra|]. right.
        eapply out_window; [auto|exact (proj2 S2)|]. apply within_false. exact Wj.
      * rewrite (kernel2_far n); auto; [lra|]. left.
        eapply out_window; [auto|exact (proj2 S2)|]. apply within_false. exact Wi.
Qed.

Lemma fast_at_ok : forall n m h x y, ok_writes (square n) (fast_at n m h x y).
Proof.
  intros n m h x y. unfold fast_at. destruct (misses _ _ _ || misses _ _ _); [constructor|].
  destruct (_ <=? 1)%Z; [|apply ok_spread2].
  destruct (inside n (floor (IZR n * x)) && inside n (floor (IZR n * y))) eqn:I; [|constructor].
  apply ok_one. unfold inside in I. rewrite !andb_true_iff, !Z.leb_le in I.
  cbn [in_bounds square]. rewrite !andb_true_iff, !Z.leb_le, !Z.ltb_lt. repeat split; lia.
Qed.

(** * Periodic copies *)

Lemma copies2_ok : forall s bx by_ f p, (forall x y, ok_writes s (f x y)) -> ok_writes s (copies2 bx by_ f p).
Proof. intros s bx by_ f p H. unfold copies2. apply ok_flat_map. intros a _. apply ok_flat_map. intros b _. apply H. Qed.

Lemma copies3_ok : forall s sh bx by_ bz f p, (forall x y z, ok_writes s (f x y z)) ->
  ok_writes s (copies3 sh bx by_ bz f p).
Proof.
  intros s sh bx by_ bz f p H. unfold copies3. apply ok_flat_map. intros a _. apply ok_flat_map. intros b _.
  apply ok_flat_map. intros c _. apply H.
Qed.

Lemma value_copies2 : forall c bx by_ f p, value_at c (copies2 bx by_ f p)
  = sumR (map (fun a => sumR (map (fun b => value_at c (f (p_x p + IZR a * bx) (p_y p + IZR b * by_)))
                                  (shifts by_))) (shifts bx)).
Proof.
  intros c bx by_ f p. unfold copies2. rewrite value_at_flat_map. apply sumR_ext. intros a _.
  rewrite value_at_flat_map. reflexivity.
Qed.

Lemma value_copies3 : forall c sh bx by_ bz f p, value_at c (copies3 sh bx by_ bz f p)
  = sumR (map (fun a => sumR (map (fun b => sumR (map (fun d =>
       value_at c (f (p_x p + IZR a * bx) (p_y p + IZR b * by_) (p_z p + IZR d * bz)))
       (sh bz))) (sh by_))) (sh bx)).
Proof.
  intros c sh bx by_ bz f p. unfold copies3. rewrite value_at_flat_map. apply sumR_ext. intros a _.
  rewrite value_at_flat_map. apply sumR_ext. intros b _. rewrite value_at_flat_map. reflexivity.
Qed.

(** Copies that the backends leave out. *)
Definition left_out (box : R) (a : Z) : Prop := box <> 0 /\ ~ (-1 <= a <= ceil (1 / box))%Z.

Lemma tiles : forall box N F, 0 <= box -> enough box N -> (forall a, left_out box a -> F a = 0) ->
  sumR (map F (shifts box)) = sumR (map F (all_copies box N)).
Proof.
  intros box N F Hb He Hz. unfold shifts, all_copies. destruct (Req_EM_T box 0) as [E|E].
  - reflexivity.
  - destruct He as [He|(He1 & He2)]; [contradiction|].
    assert (Hc : 1 / box <= IZR N).
    { apply (Rmult_le_reg_r box); [lra|]. unfold Rdiv. rewrite Rmult_assoc, Rinv_l; lra. }
    pose proof (ceil_spec (1 / box)) as C.
    assert (0 < 1 / box) by (apply Rdiv_lt_0_compat; lra).
    assert (0 < ceil (1 / box))%Z by (apply IZR_lt_lt; lra).
    assert (ceil (1 / box) <= N)%Z by (apply IZR_le_lt; lra).
    apply sumR_extend; try lia. intros i _ Hi. apply Hz. split; [exact E|lia].
Qed.

(** The copies left out are too far from the image. *)
Lemma left_out_far : forall box x w a u, 0 <= box -> wrapped box x -> fits box w -> left_out box a ->
  0 <= u -> u <= 1 \/ u < box -> apart w (u - (x + IZR a * box)).
Proof.
  intros box x w a u Hb [Hx|Hx] [Hw|Hw] (Hne & Ha) Hu0 Hu; try contradiction; try lra.
  assert (Hp : 0 < box) by lra. assert (0 < 1 / box) by (apply Rdiv_lt_0_compat; lra).
  pose proof (ceil_spec (1 / box)) as C. assert (E : 1 / box * box = 1) by (field; lra).
  assert (D : (a <= -2 \/ ceil (1 / box) + 1 <= a)%Z) by lia. destruct D as [D|D]; apply IZR_le in D.
  - left. nra.
  - right. rewrite plus_IZR in D. assert (1 / box + 1 <= IZR a) by lra.
    assert ((1 / box + 1) * box <= IZR a * box) by (apply Rmult_le_compat_r; lra).
    destruct Hu as [Hu|Hu]; [lra|].
    assert (2 <= IZR a).
    { assert (0 < ceil (1 / box))%Z as Hc by (apply IZR_lt_lt; lra). apply IZR_succ_le in Hc. lra. }
    assert (2 * box <= IZR a * box) by (apply Rmult_le_compat_r; lra). lra.
Qed.

Lemma left_out_pixel : forall n box x a i, (0 <= i < n)%Z -> 0 <= box -> wrapped box x -> left_out box a ->
  in_pixelb n i (x + IZR a * box) = false.
Proof.
  intros n box x a i (H0 & H1) Hb Hx Ho.
  destruct (in_pixelb n i (x + IZR a * box)) eqn:E; auto. exfalso. apply in_pixelb_iff in E. destruct E as (E1 & E2).
  apply IZR_le in H0. apply IZR_succ_le in H1.
  destruct Ho as (Hne & Ha). destruct Hx as [Hx|Hx]; [contradiction|]. assert (Hp : 0 < box) by lra.
  pose proof (ceil_spec (1 / box)) as C. assert (EE : 1 / box * box = 1) by (field; lra).
  assert (D : (a <= -2 \/ ceil (1 / box) + 1 <= a)%Z) by lia. destruct D as [D|D]; apply IZR_le in D.
  - assert (x + IZR a * box < 0) by nra. nra.
  - rewrite plus_IZR in D. assert (1 / box + 1 <= IZR a) by lra.
    assert ((1 / box + 1) * box <= IZR a * box) by (apply Rmult_le_compat_r; lra).
    assert (1 < x + IZR a * box) by lra. nra.
Qed.

Lemma tiles2 : forall bx by_ N (G : R -> R -> R) x y, 0 <= bx -> 0 <= by_ -> enough bx N -> enough by_ N ->
  (forall a v, left_out bx a -> G (x + IZR a * bx) v = 0) ->
  (forall b u, left_out by_ b -> G u (y + IZR b * by_) = 0) ->
  sumR (map (fun a => sumR (map (fun b => G (x + IZR a * bx) (y + IZR b * by_)) (shifts by_))) (shifts bx))
  = sumR (map (fun a => sumR (map (fun b => G (x + IZR a * bx) (y + IZR b * by_)) (all_copies by_ N)))
              (all_copies bx N)).
Proof.
  intros bx by_ N G x y Hx Hy Ex Ey Zx Zy.
  rewrite <- (tiles bx N); auto.
  - apply sumR_ext. intros a _. apply tiles; auto.
  - intros a Ha. apply sumR_zero. intros b _. apply Zx. exact Ha.
Qed.

Lemma tiles3 : forall bx by_ bz N (G : R -> R -> R -> R) x y z, 0 <= bx -> 0 <= by_ -> 0 <= bz ->
  enough bx N -> enough by_ N -> enough bz N ->
  (forall a v t, left_out bx a -> G (x + IZR a * bx) v t = 0) ->
  (forall b u t, left_out by_ b -> G u (y + IZR b * by_) t = 0) ->
  (forall c u v, left_out bz c -> G u v (z + IZR c * bz) = 0) ->
  sumR (map (fun a => sumR (map (fun b => sumR (map (fun c =>
    G (x + IZR a * bx) (y + IZR b * by_) (z + IZR c * bz)) (shifts bz))) (shifts by_))) (shifts bx))
  = sumR (map (fun a => sumR (map (fun b => sumR (map (fun c =>
    G (x + IZR a * bx) (y + IZR b * by_) (z + IZR c * bz)) (all_copies bz N))) (all_copies by_ N)))
              (all_copies bx N)).
Proof.
  intros bx by_ bz N G x y z Hx Hy Hz Ex Ey Ez Zx Zy Zz.
  rewrite <- (tiles bx N); auto.
  - apply sumR_ext. intros a _. rewrite <- (tiles by_ N); auto.
    + apply sumR_ext. intros b _. apply tiles; auto.
    + intros b Hb. apply sumR_zero. intros c _. apply Zy. exact Hb.
  - intros a Ha. apply sumR_zero. intros b _. apply sumR_zero. intros c _. apply Zx. exact Ha.
Qed.

Lemma contribution2_left_x : forall n m w bx x a v i j, (1 <= n)%Z -> 0 <= w ->
  (0 <= i < n)%Z -> (0 <= j < n)%Z -> 0 <= bx -> wrapped bx x -> fits bx w -> left_out bx a ->
  contribution2 n m w (x + IZR a * bx) v i j = 0.
Proof.
  intros n m w bx x a v i j Hn Hw Hi Hj Hb Hx Hf Ho. unfold contribution2.
  destruct (Rlt_dec (w * IZR n) 1) as [L|L].
  - rewrite (left_out_pixel n bx x a i); auto.
  - pose proof (n_pos n Hn). rewrite (kernel2_far n); auto; [lra|nra|].
    left. rewrite offset_centre by auto. pose proof (centre_bounds n i Hi). apply left_out_far; auto; lra.
Qed.

Lemma contribution2_left_y : forall n m w by_ y a u i j, (1 <= n)%Z -> 0 <= w ->
  (0 <= i < n)%Z -> (0 <= j < n)%Z -> 0 <= by_ -> wrapped by_ y -> fits by_ w -> left_out by_ a ->
  contribution2 n m w u (y + IZR a * by_) i j = 0.
Proof.
  intros n m w by_ y a u i j Hn Hw Hi Hj Hb Hy Hf Ho. unfold contribution2.
  destruct (Rlt_dec (w * IZR n) 1) as [L|L].
  - rewrite (left_out_pixel n by_ y a j); auto. rewrite andb_false_r. reflexivity.
  - pose proof (n_pos n Hn). rewrite (kernel2_far n); auto; [lra|nra|].
    right. rewrite offset_centre by auto. pose proof (centre_bounds n j Hj). apply left_out_far; auto; lra.
Qed.

(** * Threads *)

Lemma firstn_add : forall A (l : list A) u v, firstn (u + v) l = firstn u l ++ firstn v (skipn u l).
Proof. induction l as [|x t IH]; intros [|u] v; cbn; auto; [destruct v; reflexivity|]. rewrite IH. reflexivity. Qed.

Lemma skipn_add : forall A (l : list A) u v, skipn u (skipn v l) = skipn (v + u) l.
Proof. induction l as [|x t IH]; intros u [|v]; cbn; auto. destruct u; reflexivity. Qed.

Lemma slice_app : forall A (l : list A) a b c, (0 <= a)%Z -> (a <= b)%Z -> (b <= c)%Z ->
  slice l (a, b) ++ slice l (b, c) = slice l (a, c).
Proof.
  intros A l a b c Ha Hab Hbc. unfold slice. cbn [fst snd].
  replace (Z.to_nat (c - a)) with (Z.to_nat (b - a) + Z.to_nat (c - b))%nat by lia.
  rewrite firstn_add, skipn_add. do 3 f_equal. lia.
Qed.

Lemma slice_all : forall A (l : list A), slice l (0%Z, zlen l) = l.
Proof.
  intros A l. unfold slice. cbn [fst snd]. change (Z.to_nat 0) with O. cbn [skipn]. rewrite Z.sub_0_r.
  unfold zlen. rewrite Nat2Z.id. apply firstn_all.
Qed.

(** The slices of the threads, in order, are the whole array. *)
Lemma slices_prefix : forall A (l : list A) threads k, (0 <= k < threads)%Z ->
  flat_map (fun t => slice l (thread_range (zlen l) threads t)) (zrange 0 k)
  = slice l (0%Z, (k * (zlen l / threads))%Z).
Proof.
  intros A l threads k Hk. assert (0 <= zlen l)%Z by apply zlen_nonneg.
  assert (0 <= zlen l / threads)%Z by (apply Z.div_pos; lia).
  assert (Hk0 : (0 <= k)%Z) by lia. assert (Hk1 : (k < threads)%Z) by lia. clear Hk.
  revert k Hk0 Hk1. refine (natlike_ind _ _ _).
  - intros _. rewrite zrange_nil by lia. unfold slice. cbn. reflexivity.
  - intros t Ht IH Hlt. unfold Z.succ in *. rewrite zrange_snoc by lia. rewrite flat_map_app, IH by lia.
    cbn [flat_map]. rewrite app_nil_r. unfold thread_range.
    replace (t + 1 =? threads)%Z with false by (symmetry; apply Z.eqb_neq; lia).
    apply slice_app; nia.
Qed.

Lemma slices_all : forall A (l : list A) threads, (1 <= threads)%Z ->
  flat_map (fun t => slice l (thread_range (zlen l) threads t)) (zrange 0 threads) = l.
Proof.
  intros A l threads H. replace (zrange 0 threads) with (zrange 0 (threads - 1) ++ [(threads - 1)%Z]).
  2: { rewrite <- zrange_snoc by lia. f_equal. lia. }
  rewrite flat_map_app, slices_prefix by lia. cbn [flat_map]. rewrite app_nil_r. unfold thread_range.
  replace (threads - 1 + 1 =? threads)%Z with true by (symmetry; apply Z.eqb_eq; lia).
  assert (0 <= zlen l)%Z by apply zlen_nonneg. assert (0 <= zlen l / threads)%Z by (apply Z.div_pos; lia).
  rewrite slice_app; try nia; [apply slice_all|].
  pose proof (Z.mul_div_le (zlen l) threads ltac:(lia)). nia.
Qed.

(** * Adding images *)

Lemma broadcasts_refl : forall s, broadcasts s s = true.
Proof. induction s as [|a t IH]; cbn; auto. rewrite Z.eqb_refl. exact IH. Qed.

Lemma clip_id : forall s c, in_bounds s c = true -> clip s c = c.
Proof.
  induction s as [|b t IH]; intros [|i c] H; cbn in *; auto; try discriminate.
  rewrite !andb_true_iff, Z.leb_le, Z.ltb_lt in H. destruct H as (H & Hc). rewrite IH by auto.
  destruct (Z.eqb_spec b 1); f_equal. lia.
Qed.

Lemma slice_In : forall A (l : list A) r a, In a (slice l r) -> In a l.
Proof.
  intros A l r a H. unfold slice in H. set (u := Z.to_nat (fst r)) in *.
  rewrite <- (firstn_skipn u l). apply in_or_app. right.
  rewrite <- (firstn_skipn (Z.to_nat (snd r - fst r)) (skipn u l)). apply in_or_app. left. exact H.
Qed.

Lemma reduce_value : forall s whole f ps threads order out,
  (forall p, In p ps -> ok_writes whole (f p)) ->
  exists img, reduce s s whole f ps threads order out = Ok img /\
    forall c, in_bounds s c = true ->
      img c = out c + value_at c (flat_map f (flat_map (fun t => slice ps (thread_range (zlen ps) threads t)) order)).
Proof.
  intros s whole f ps threads. induction order as [|t rest IH]; intros out Hok; cbn [reduce].
  - exists out. split; auto. intros c _. cbn. unfold value_at. cbn. lra.
  - destruct (render_spec whole (flat_map f (slice ps (thread_range (zlen ps) threads t)))) as (img1 & E1 & V1).
    { apply ok_flat_map. intros p Hp. apply Hok. eapply slice_In. exact Hp. }
    rewrite E1. cbn [bind]. unfold iadd at 1. rewrite broadcasts_refl. cbn [bind].
    destruct (IH (fun c => out c + img1 (clip s c)) Hok) as (img & E & V). exists img. split; [exact E|].
    intros c Hc. rewrite V, clip_id, V1 by auto. cbn [flat_map]. rewrite flat_map_app, value_at_app. lra.
Qed.

Lemma parallel_spec : forall s whole f ps threads order,
  (1 <= threads)%Z -> Permutation order (zrange 0 threads) ->
  (forall p, In p ps -> ok_writes whole (f p)) ->
  exists img, parallel s s whole f ps threads order = Ok img /\
    forall c, in_bounds s c = true -> img c = value_at c (flat_map f ps).
Proof.
  intros s whole f ps threads order Ht Ho Hok.
  destruct (reduce_value s whole f ps threads order zeros Hok) as (img & E & V).
  exists img. split; [exact E|]. intros c Hc. rewrite V by auto. unfold zeros. rewrite Rplus_0_l.
  apply value_at_perm. pose proof (f_equal (flat_map f) (slices_all part ps threads Ht)) as S. rewrite <- S.
  apply Permutation_flat_map. apply Permutation_flat_map. exact Ho.
Qed.

(** The image of the threads is the image of the serial function. *)
Lemma parallel_same : forall s whole f ps threads order,
  (1 <= threads)%Z -> Permutation order (zrange 0 threads) ->
  (forall p, In p ps -> ok_writes whole (f p)) ->
  exists img img', render whole (flat_map f ps) = Ok img /\
    parallel s s whole f ps threads order = Ok img' /\ same_image s img img'.
Proof.
  intros s whole f ps threads order Ht Ho Hok.
  destruct (render_spec whole (flat_map f ps)) as (img & E & V). { apply ok_flat_map. exact Hok. }
  destruct (parallel_spec s whole f ps threads order Ht Ho Hok) as (img' & E' & V').
  exists img, img'. split; [|split]; auto. intros c Hc. rewrite V, V' by auto. reflexivity.
Qed.

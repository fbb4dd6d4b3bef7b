(** Where the compiled backends divide by zero. *)
From Coq Require Import List ZArith Reals Bool Lia Lra.
From Verif Require Import Base BaseLemmas VisModel VisProofs VisSumProofs DivModel DivSpec.
Import ListNotations.
Open Scope R_scope.

(** * Loops without exceptions *)

Lemma quot_ok a b : b <> 0 -> quot a b = Ok (a / b).
Proof. intros H. unfold quot. destruct (Req_EM_T b 0); [contradiction|reflexivity]. Qed.

Lemma all_ok_good {A B} (f : A -> res B) g l : (forall a, In a l -> f a = Ok (g a)) -> all_ok (map f l) = Ok (map g l).
Proof. intros H. rewrite <- all_ok_map_ok. f_equal. now apply map_ext_in. Qed.

Lemma cat_good {A B} (f : A -> res (list B)) g l : (forall a, In a l -> f a = Ok (g a)) -> cat (map f l) = Ok (flat_map g l).
Proof. intros H. unfold cat. rewrite (all_ok_good f g l H). cbn [bind]. now rewrite flat_map_concat_map. Qed.

Lemma kernel2_good r H : H <> 0 -> kernel2_c r H = Ok (kernel2 r H).
Proof. intros N. unfold kernel2_c. rewrite quot_ok by assumption. reflexivity. Qed.
Lemma kernel3_good r H : H <> 0 -> kernel3_c r H = Ok (kernel3 r H).
Proof. intros N. unfold kernel3_c. rewrite quot_ok by assumption. reflexivity. Qed.

Lemma spread2_good wx wy f g : (forall i j, In i wx -> In j wy -> f i j = Ok (g i j)) -> spread2_c wx wy f = Ok (spread2 wx wy g).
Proof. intros H. unfold spread2_c, spread2. apply cat_good. intros i Hi. apply all_ok_good. intros j Hj. now rewrite H. Qed.
Lemma spread3_good wx wy wz f g : (forall i j k, f i j k = Ok (g i j k)) -> spread3_c wx wy wz f = Ok (spread3 wx wy wz g).
Proof. intros H. unfold spread3_c, spread3. apply cat_good. intros i _. apply cat_good. intros j _. apply all_ok_good. intros k _. now rewrite H. Qed.

Lemma shifts_good box : shifts_c box = Ok (shifts box).
Proof. unfold shifts_c, shifts. destruct (Req_EM_T box 0); [reflexivity|]. now rewrite quot_ok. Qed.

Lemma copies2_good bx by_ f g p : (forall x y, f x y = Ok (g x y)) -> copies2_c (shifts bx) (shifts by_) bx by_ f p = Ok (copies2 bx by_ g p).
Proof. intros H. unfold copies2_c, copies2. apply cat_good. intros i _. apply cat_good. intros j _. apply H. Qed.
Lemma copies3_good sh bx by_ bz f g p : (forall x y z, f x y z = Ok (g x y z)) -> copies3_c (sh bx) (sh by_) (sh bz) bx by_ bz f p = Ok (copies3 sh bx by_ bz g p).
Proof. intros H. unfold copies3_c, copies3. apply cat_good. intros i _. apply cat_good. intros j _. apply cat_good. intros k _. apply H. Qed.

Lemma alloc_good s : Forall (fun n => (0 <= n)%Z) s -> alloc s = Ok tt.
Proof. intros H. unfold alloc. replace (forallb _ s) with true; [reflexivity|]. symmetry. apply forallb_forall. rewrite Forall_forall in H. intros n Hn. apply Z.leb_le. now apply H. Qed.

Lemma pixels_pos n : (0 < n)%Z -> IZR n <> 0.
Proof. intros H. apply IZR_lt in H. lra. Qed.

(** Kernels wider than a pixel. *)
Lemma spans n w : (0 < n)%Z -> (1 < trunc (1 + w * IZR n))%Z -> 1 / IZR n <= w /\ 0 < w.
Proof.
  intros N S. apply IZR_lt in N. unfold trunc in S. destruct (Rle_dec 0 (1 + w * IZR n)) as [P|P].
  - pose proof (floor_spec (1 + w * IZR n)) as F. assert (2 <= IZR (floor (1 + w * IZR n))) by (apply (IZR_le 2); lia).
    assert (1 <= w * IZR n) by lra. assert (1 / IZR n <= w). { apply (Rmult_le_reg_r (IZR n)); [assumption|]. unfold Rdiv. rewrite Rmult_1_l, Rinv_l by lra. assumption. }
    split; [assumption|]. assert (0 < 1 / IZR n) by (apply Rdiv_lt_0_compat; lra). lra.
  - pose proof (ceil_spec (1 + w * IZR n)) as F. apply IZR_lt in S. exfalso. lra.
Qed.

Lemma kernel_at_good n w x y i j : w <> 0 -> kernel_at_c (1 / IZR n) w x y i j = Ok (kernel_at n w x y i j).
Proof. intros W. unfold kernel_at_c, kernel_at, offset_c, offset. now rewrite kernel2_good. Qed.

Lemma fast_at_good n m h x y : (0 < n)%Z -> fast_at_c n (1 / IZR n) m h x y = Ok (fast_at n m h x y).
Proof.
  intros N. unfold fast_at_c, fast_at. set (w := gamma2 * h). set (s := trunc _). destruct (_ || _); [reflexivity|].
  destruct (s <=? 1)%Z eqn:S; [reflexivity|]. apply Z.leb_gt in S. destruct (spans n w N S) as [_ W]. apply spread2_good. intros i j _ _. rewrite kernel_at_good by lra. reflexivity.
Qed.

(** The pixel of the particle is under its kernel. *)
Lemma pixel_near n x : (0 < n)%Z -> Rabs (offset n (floor (IZR n * x)) x) <= / 2 * (1 / IZR n).
Proof.
  intros N. apply IZR_lt in N. pose proof (floor_spec (IZR n * x)) as F. unfold offset. set (c := IZR (floor (IZR n * x))) in *. clearbody c.
  replace ((c + / 2) * (1 / IZR n) - x) with ((c + / 2 - IZR n * x) * (1 / IZR n)) by (field; lra).
  assert (P : 0 < 1 / IZR n) by (apply Rdiv_lt_0_compat; lra). rewrite Rabs_mult, (Rabs_pos_eq (1 / IZR n)) by lra.
  apply Rmult_le_compat_r; [lra|]. apply Rabs_le. lra.
Qed.

Lemma near_kernel a b d w : 0 < d -> d <= w -> Rabs a <= / 2 * d -> Rabs b <= / 2 * d -> sqrt (a * a + b * b) < w.
Proof.
  intros D W A B. apply (Rlt_le_trans _ d); [|assumption]. rewrite <- (sqrt_square d) by lra. apply sqrt_lt_1_alt.
  assert (a * a <= / 4 * (d * d)). { rewrite <- (Rabs_pos_eq (a * a)) by nra. rewrite Rabs_mult. pose proof (Rabs_pos a). nra. }
  assert (b * b <= / 4 * (d * d)). { rewrite <- (Rabs_pos_eq (b * b)) by nra. rewrite Rabs_mult. pose proof (Rabs_pos b). nra. }
  split; nra.
Qed.

Lemma sum2_pos (f : Z -> Z -> R) wx wy i0 j0 : (forall i j, 0 <= f i j) -> In i0 wx -> In j0 wy -> 0 < f i0 j0 ->
  0 < sumR (flat_map (fun i => map (f i) wy) wx).
Proof.
  intros H I J P. assert (T : forall (g : Z -> R) l a, (forall i, 0 <= g i) -> In a l -> g a <= sumR (map g l)).
  { clear. intros g l a H. induction l as [|b l IH]; [contradiction|]. intros [<-|Hb]; cbn [map]; rewrite sumR_cons.
    - pose proof (sumR_nonneg _ g l (fun i _ => H i)). lra.
    - specialize (IH Hb). specialize (H b). lra. }
  rewrite sumR_flat_map. apply (Rlt_le_trans _ (f i0 j0) _ P). apply (Rle_trans _ (sumR (map (f i0) wy))); [apply T; auto|].
  apply (T (fun i => sumR (map (f i) wy))); [|assumption]. intros i. apply sumR_nonneg. intros; apply H.
Qed.

Lemma normalisation_pos n s w x y : (0 < n)%Z -> 1 / IZR n <= w -> (1 < s)%Z -> 0 < normalisation n (floor (IZR n * x)) (floor (IZR n * y)) s w x y.
Proof.
  intros N W S. assert (P : 0 < 1 / IZR n) by (apply IZR_lt in N; apply Rdiv_lt_0_compat; lra). unfold normalisation.
  apply (sum2_pos _ _ _ (floor (IZR n * x)) (floor (IZR n * y))).
  - intros i j. unfold kernel_at. apply kernel2_nonneg; [lra|apply sqrt_pos].
  - apply In_zrange. lia.
  - apply In_zrange. lia.
  - unfold kernel_at. apply kernel2_pos; [lra|apply sqrt_pos|]. apply (near_kernel _ _ (1 / IZR n)); [assumption|assumption|now apply pixel_near|now apply pixel_near].
Qed.

Lemma renormalised_at_good n m h x y : (0 < n)%Z -> renormalised_at_c n (1 / IZR n) m h x y = Ok (renormalised_at n m h x y).
Proof.
  intros N. unfold renormalised_at_c, renormalised_at. set (w := gamma2 * h). set (s := trunc _). destruct (_ || _); [reflexivity|].
  destruct (s <=? 1)%Z eqn:S; [reflexivity|]. apply Z.leb_gt in S. destruct (spans n w N S) as [W1 W].
  rewrite (cat_good _ (fun i => map (kernel_at n w x y i) (zrange (floor (IZR n * y) - s + 1) (floor (IZR n * y) + s)))).
  2:{ intros i _. apply all_ok_good. intros j _. apply kernel_at_good. lra. }
  cbn [bind]. pose proof (normalisation_pos n s w x y N W1 S) as Q. unfold normalisation in *. rewrite quot_ok by lra. cbn [bind].
  apply spread2_good. intros i j _ _. rewrite kernel_at_good by lra. reflexivity.
Qed.

Lemma reference_loop_good n m h x y0 by_ sh : (0 < n)%Z -> reference_loop_c n (1 / IZR n) m h x y0 by_ sh = Ok (reference_loop n m h x y0 by_ sh).
Proof.
  intros N. induction sh as [|sy sh IH]; [reflexivity|]. cbn [reference_loop_c reference_loop]. set (w := gamma2 * h). set (s := trunc _). destruct (_ || _); [exact IH|].
  destruct (s <=? 2)%Z eqn:S; [reflexivity|]. apply Z.leb_gt in S. destruct (spans n w N ltac:(fold s; lia)) as [_ W].
  rewrite (spread2_good _ _ _ (fun i j => m * kernel_at n w x (y0 + IZR sy * by_) i j)).
  2:{ intros i j _ _. rewrite kernel_at_good by lra. reflexivity. }
  cbn [bind]. rewrite IH. reflexivity.
Qed.

(** * Dithering *)

Lemma dither_raw_good d a b : (0 < d)%Z -> dither_raw_c d a b = Ok (dither_raw d a b).
Proof. intros H. apply kernel2_good. now apply pixels_pos. Qed.

Lemma dither_sum_pos d : (0 < d)%Z -> 0 < dither_sum d.
Proof.
  intros H. unfold dither_sum. apply (sum2_pos _ _ _ d d).
  - intros a b. unfold dither_raw. apply kernel2_nonneg; [now apply IZR_lt|apply sqrt_pos].
  - apply In_zrange. lia.
  - apply In_zrange. lia.
  - unfold dither_raw. apply kernel2_pos; [now apply IZR_lt|apply sqrt_pos|]. assert (1 <= IZR d) by (apply (IZR_le 1); lia).
    apply (near_kernel _ _ 1); [lra|assumption| |]; replace (IZR d + / 2 - IZR d) with (/ 2) by ring; rewrite Rabs_pos_eq; lra.
Qed.

Lemma dither_table_good n d : (0 < d)%Z -> exists t, dither_table n d = Ok t /\ forall a b, t a b = Ok (dithered n d a b).
Proof.
  intros H. unfold dither_table. rewrite (cat_good _ (fun a => map (dither_raw d a) (zrange 0 (2 * d)))).
  2:{ intros a _. apply all_ok_good. intros b _. now apply dither_raw_good. }
  cbn [bind]. pose proof (dither_sum_pos d H) as P. unfold dither_sum in P. rewrite quot_ok by lra. cbn [bind]. eexists; split; [reflexivity|].
  intros a b. cbv beta. rewrite dither_raw_good by assumption. reflexivity.
Qed.

Lemma subsampled_at_good e d n t m h x y : (0 < n)%Z -> (forall a b, t a b = Ok (dithered n d a b)) ->
  subsampled_at_c e d n (1 / IZR n) (1 / IZR d) t m h x y = Ok (subsampled_at e d n m h x y).
Proof.
  intros N T. unfold subsampled_at_c, subsampled_at. set (w := gamma2 * h). set (s := trunc _). destruct (_ || _); [reflexivity|].
  destruct (Rle_dec w (/ 4 * (1 / IZR n))) as [L|L].
  - rewrite !quot_ok by now apply pixels_pos. cbn [bind]. destruct (_ && _); [reflexivity|]. apply cat_good. intros a _. apply cat_good. intros b _.
    unfold dither_pixel. destruct (_ && _); [|reflexivity]. rewrite T. reflexivity.
  - assert (P : 0 < 1 / IZR n) by (pose proof N as N'; apply IZR_lt in N'; apply Rdiv_lt_0_compat; lra). assert (W : 0 < w) by lra.
    assert (F : 0 < 1 + w * IZR n). { apply IZR_lt in N. nra. }
    rewrite quot_ok by lra. cbn [bind]. set (f := Z.max 1 _). assert (F1 : IZR f <> 0) by (apply pixels_pos; unfold f; lia).
    rewrite quot_ok by assumption. cbn [bind]. apply spread2_good. intros i j _ _. unfold subsample.
    rewrite (cat_good _ (fun a => map (fun b =>
      let dx := (IZR i + (IZR a + / 2) * (1 / IZR f)) * (1 / IZR n) - x in
      let dy := (IZR j + (IZR b + / 2) * (1 / IZR f)) * (1 / IZR n) - y in
      kernel2 (sqrt (dx * dx + dy * dy)) w) (zrange 0 f))); [reflexivity|].
    intros a _. apply all_ok_good. intros b _. apply kernel2_good. lra.
Qed.

(** * Volumes *)

Lemma voxel_at_good nz n m h x y z : (0 < n)%Z -> voxel_at_c nz n (1 / IZR n) (1 / IZR nz) m h x y z = Ok (voxel_at nz n m h x y z).
Proof.
  intros N. unfold voxel_at_c, voxel_at. set (w := gamma3 * h). destruct (misses n _ _ || _ || _); [reflexivity|].
  assert (P : 0 < 1 / IZR n) by (pose proof N as N'; apply IZR_lt in N'; apply Rdiv_lt_0_compat; lra).
  destruct (Rlt_dec w (1 / IZR n * / 2)) as [L|L]; [reflexivity|]. cbn [orb]. destruct (if Rlt_dec w (1 / IZR nz * / 2) then true else false); [reflexivity|].
  apply spread3_good. intros i j k. unfold offset_c, offset. rewrite kernel3_good by lra. reflexivity.
Qed.

(** * Slices *)

Lemma all_ok_bad {A B} (f : A -> res B) e l : (forall a, In a l -> f a = Err e \/ exists b, f a = Ok b) -> (exists a, In a l /\ f a = Err e) -> all_ok (map f l) = Err e.
Proof.
  induction l as [|a l IH]; intros H (a0 & I & E); [contradiction|]. cbn [map all_ok]. destruct (H a (or_introl eq_refl)) as [X|[b X]]; rewrite X; [reflexivity|].
  destruct I as [<-|I]; [congruence|]. rewrite IH; [reflexivity|intros; apply H; now right|]. now exists a0.
Qed.
Lemma cat_bad {A B} (f : A -> res (list B)) e l : (forall a, In a l -> f a = Err e \/ exists b, f a = Ok b) -> (exists a, In a l /\ f a = Err e) -> cat (map f l) = Err e.
Proof. intros H X. unfold cat. now rewrite (all_ok_bad f e l H X). Qed.
Lemma cat_either {A B} (f : A -> res (list B)) e l : (forall a, In a l -> f a = Err e \/ exists b, f a = Ok b) -> cat (map f l) = Err e \/ exists b, cat (map f l) = Ok b.
Proof.
  intros H. unfold cat. assert (X : all_ok (map f l) = Err e \/ exists b, all_ok (map f l) = Ok b).
  { induction l as [|a l IH]; [right; now exists []|]. cbn [map all_ok]. destruct (H a (or_introl eq_refl)) as [X|[b X]]; rewrite X; [now left|].
    destruct IH as [E|[c E]]; [intros; apply H; now right| |]; rewrite E; [now left|right; eauto]. }
  destruct X as [-> |[b ->]]; [now left|right; cbn [bind]; eauto].
Qed.

(** Whether a copy divides by zero. *)
Definition point_at (n : Z) (zs h x y z : R) : Prop := h = 0 /\ z = zs /\ (0 <= floor (IZR n * x) <= n)%Z /\ (0 <= floor (IZR n * y) <= n)%Z.

Lemma one_spanned n : trunc (1 + 0 * IZR n) = 1%Z.
Proof. rewrite Rmult_0_l, Rplus_0_r, trunc_floor by lra. apply floor_unique. lra. Qed.

Lemma slice_at_cases n zs m h x y z : (0 < n)%Z ->
  (point_at n zs h x y z /\ slice_at_c n (1 / IZR n) zs m h x y z = Err ZeroDivision)
  \/ (~ point_at n zs h x y z /\ slice_at_c n (1 / IZR n) zs m h x y z = Ok (slice_at n zs m h x y z)).
Proof.
  intros N. unfold slice_at_c, slice_at. set (w := gamma3 * h). set (s := trunc _). set (cx := floor (IZR n * x)). set (cy := floor (IZR n * y)).
  destruct (Req_EM_T h 0) as [H|H].
  - assert (W : w = 0) by (unfold w; rewrite H; ring). assert (S : s = 1%Z) by (unfold s; rewrite W; apply one_spanned). unfold point_at. fold cx cy.
    rewrite S. destruct (Rlt_dec (w * w) ((z - zs) * (z - zs))) as [Z|Z].
    + right. split; [|reflexivity]. intros (_ & -> & _). rewrite W in Z. lra.
    + assert (Z' : z = zs) by (rewrite W in Z; nra). cbn [orb].
      assert (D : ((0 <= cx <= n)%Z /\ (0 <= cy <= n)%Z) \/ ~ ((0 <= cx <= n)%Z /\ (0 <= cy <= n)%Z)) by lia. destruct D as [D|D].
      * left. split; [tauto|]. unfold misses.
        replace (cx + 1 <? 0)%Z with false by (symmetry; apply Z.ltb_ge; lia). replace (n - 1 <? cx - 1)%Z with false by (symmetry; apply Z.ltb_ge; lia).
        replace (cy + 1 <? 0)%Z with false by (symmetry; apply Z.ltb_ge; lia). replace (n - 1 <? cy - 1)%Z with false by (symmetry; apply Z.ltb_ge; lia). cbn [orb].
        unfold spread2_c. assert (K : forall r, kernel3_c r w = Err ZeroDivision) by (intros r; unfold kernel3_c, quot; rewrite W; destruct (Req_EM_T 0 0); [reflexivity|congruence]).
        assert (E : forall i, all_ok (map (fun j => do v <- (let dx := offset_c (1 / IZR n) i x in let dy := offset_c (1 / IZR n) j y in
                     do k <- kernel3_c (sqrt (dx * dx + dy * dy + (z - zs) * (z - zs))) w; Ok (m * k)); Ok ([i; j], v)) (window n (cy - 1) (cy + 1))) = Err ZeroDivision).
        { intros i. apply all_ok_bad; [intros j _; left; cbn zeta; now rewrite K|]. exists (Z.max 0 (cy - 1)). split; [unfold window; apply In_zrange; lia|]. cbn zeta. now rewrite K. }
        apply cat_bad; [intros i _; left; apply E|]. exists (Z.max 0 (cx - 1)). split; [unfold window; apply In_zrange; lia|apply E].
      * right. split; [tauto|]. destruct (_ || _); [reflexivity|]. apply spread2_good. intros i j Hi Hj. exfalso. apply D. unfold window in Hi, Hj. apply In_zrange in Hi, Hj. lia.
  - right. split; [intros (F & _); contradiction|]. destruct (_ || _ || _); [reflexivity|]. apply spread2_good. intros i j _ _. unfold offset_c, offset. rewrite kernel3_good; [reflexivity|].
    unfold w, gamma3. intro E. apply H. lra.
Qed.

Lemma floor_pixels n x : (0 < n)%Z -> (0 <= floor (IZR n * x) <= n)%Z <-> 0 <= x < 1 + 1 / IZR n.
Proof.
  intros N. pose proof N as N'. apply IZR_lt in N'. pose proof (floor_spec (IZR n * x)) as F. assert (E : IZR n * (1 + 1 / IZR n) = IZR n + 1) by (field; lra). split.
  - intros [A B]. apply IZR_le in A, B. split; [nra|]. apply (Rmult_lt_reg_l (IZR n)); [assumption|]. rewrite E. lra.
  - intros [A B]. split; [apply floor_le; nra|]. apply IZR_le_lt. apply (Rmult_lt_compat_l (IZR n)) in B; [|assumption]. rewrite E in B. lra.
Qed.

Lemma shifts_copy box x x' : copy_of box x x' <-> exists i, In i (shifts box) /\ x' = x + IZR i * box.
Proof.
  unfold copy_of, shifts. destruct (Req_EM_T box 0) as [->|N].
  - split.
    + intros [[_ ->]|[E _]]; [|contradiction]. exists 0%Z. split; [now left|ring].
    + intros (i & _ & ->). left. split; [reflexivity|ring].
  - split.
    + intros [[E _]|(_ & i & A & B & ->)]; [contradiction|]. exists i. split; [|reflexivity]. apply In_zrange. pose proof (ceil_spec (1 / box)) as C.
      enough (i <= ceil (1 / box))%Z by lia. apply IZR_le_lt. lra.
    + intros (i & I & ->). right. split; [assumption|]. apply In_zrange in I. exists i. split; [lia|]. split; [|reflexivity]. pose proof (ceil_spec (1 / box)) as C.
      assert (IZR i <= IZR (ceil (1 / box))) by (apply IZR_le; lia). lra.
Qed.

Lemma point_copies n zs bx by_ bz p : (0 < n)%Z -> point_in_slice n zs bx by_ bz p <->
  exists i j k, In i (shifts bx) /\ In j (shifts by_) /\ In k (shifts bz) /\ point_at n zs (p_h p) (p_x p + IZR i * bx) (p_y p + IZR j * by_) (p_z p + IZR k * bz).
Proof.
  intros N. unfold point_in_slice, point_at. split.
  - intros (H & x & y & z & X & Y & Z & E & A & B). apply shifts_copy in X, Y, Z. destruct X as (i & I & ->), Y as (j & J & ->), Z as (k & K & ->).
    exists i, j, k. rewrite !floor_pixels by assumption. tauto.
  - intros (i & j & k & I & J & K & H & E & A & B). rewrite floor_pixels in A, B by assumption. split; [assumption|]. exists (p_x p + IZR i * bx), (p_y p + IZR j * by_), (p_z p + IZR k * bz). rewrite !shifts_copy. split; [eauto|]. split; [eauto|]. split; [eauto|]. tauto.
Qed.

Lemma slice_part_cases n zs bx by_ bz p : (0 < n)%Z ->
  let r := copies3_c (shifts bx) (shifts by_) (shifts bz) bx by_ bz (slice_at_c n (1 / IZR n) zs (p_m p) (p_h p)) p in
  (point_in_slice n zs bx by_ bz p -> r = Err ZeroDivision) /\ (~ point_in_slice n zs bx by_ bz p -> r = Ok (slice_part n zs bx by_ bz p)).
Proof.
  intros N r. assert (E : forall x y z, slice_at_c n (1 / IZR n) zs (p_m p) (p_h p) x y z = Err ZeroDivision \/ exists b, slice_at_c n (1 / IZR n) zs (p_m p) (p_h p) x y z = Ok b).
  { intros x y z. destruct (slice_at_cases n zs (p_m p) (p_h p) x y z N) as [[_ ->]|[_ ->]]; eauto. }
  rewrite (point_copies n zs bx by_ bz p N). unfold r, copies3_c. split.
  - intros (i & j & k & I & J & K & P).
    apply cat_bad; [intros a _; apply cat_either; intros b _; apply cat_either; intros c _; apply E|]. exists i. split; [assumption|].
    apply cat_bad; [intros b _; apply cat_either; intros c _; apply E|]. exists j. split; [assumption|].
    apply cat_bad; [intros c _; apply E|]. exists k. split; [assumption|].
    destruct (slice_at_cases n zs (p_m p) (p_h p) (p_x p + IZR i * bx) (p_y p + IZR j * by_) (p_z p + IZR k * bz) N) as [[_ X]|[X _]]; [exact X|contradiction].
  - intros H. unfold slice_part, copies3. apply cat_good. intros i I. apply cat_good. intros j J. apply cat_good. intros k K.
    destruct (slice_at_cases n zs (p_m p) (p_h p) (p_x p + IZR i * bx) (p_y p + IZR j * by_) (p_z p + IZR k * bz) N) as [[X _]|[_ X]]; [|exact X].
    exfalso. apply H. now exists i, j, k.
Qed.

Lemma slice_all_cases n zs bx by_ bz ps : (0 < n)%Z ->
  let r := cat (map (fun p => copies3_c (shifts bx) (shifts by_) (shifts bz) bx by_ bz (slice_at_c n (1 / IZR n) zs (p_m p) (p_h p)) p) ps) in
  (Exists (point_in_slice n zs bx by_ bz) ps -> r = Err ZeroDivision) /\ (~ Exists (point_in_slice n zs bx by_ bz) ps -> r = Ok (flat_map (slice_part n zs bx by_ bz) ps)).
Proof.
  intros N r. split.
  - intros H. apply Exists_exists in H. destruct H as (p & I & P). apply cat_bad.
    + intros q _. destruct (Classical_Prop.classic (point_in_slice n zs bx by_ bz q)) as [Q|Q].
      * left. now apply slice_part_cases.
      * right. eexists. now apply slice_part_cases.
    + exists p. split; [assumption|]. now apply slice_part_cases.
  - intros H. apply cat_good. intros p I. apply slice_part_cases; [assumption|]. intros P. apply H. apply Exists_exists. eauto.
Qed.

(** * The backends *)

Section Sizes.
Variable n : Z.
Hypothesis N : (0 < n)%Z.

Lemma start : alloc (square n) = Ok tt /\ alloc (cube n) = Ok tt /\ quot 1 (IZR n) = Ok (1 / IZR n).
Proof. split; [|split]; [apply alloc_good; repeat constructor; lia|apply alloc_good; repeat constructor; lia|]. apply quot_ok. now apply pixels_pos. Qed.

Lemma fast_good bx by_ ps : fast_c n bx by_ ps = fast n bx by_ ps.
Proof.
  destruct start as (A & _ & Q). unfold fast_c, fast. rewrite A. cbn [bind]. rewrite Q. cbn [bind]. rewrite !shifts_good. cbn [bind].
  rewrite (cat_good _ (fast_part n bx by_)); [reflexivity|]. intros p _. apply copies2_good. intros x y. now apply fast_at_good.
Qed.
Lemma renormalised_good bx by_ ps : renormalised_c n bx by_ ps = renormalised n bx by_ ps.
Proof.
  destruct start as (A & _ & Q). unfold renormalised_c, renormalised. rewrite A. cbn [bind]. rewrite Q. cbn [bind]. rewrite !shifts_good. cbn [bind].
  rewrite (cat_good _ (renormalised_part n bx by_)); [reflexivity|]. intros p _. apply copies2_good. intros x y. now apply renormalised_at_good.
Qed.
Lemma reference_good bx by_ ps : reference_c n bx by_ ps = reference n bx by_ ps.
Proof.
  destruct start as (A & _ & Q). unfold reference_c, reference. rewrite A. cbn [bind]. rewrite Q. cbn [bind]. rewrite !shifts_good. cbn [bind].
  rewrite (cat_good _ (reference_part n bx by_)); [reflexivity|]. intros p _. unfold reference_part. apply cat_good. intros i _. now apply reference_loop_good.
Qed.
Lemma subsampled_good e d bx by_ ps : (0 < d)%Z -> subsampled_c e d n bx by_ ps = subsampled e d n bx by_ ps.
Proof.
  intros D. destruct start as (A & _ & Q). unfold subsampled_c, subsampled. rewrite A. cbn [bind]. rewrite Q. cbn [bind]. rewrite (quot_ok 1 (IZR d)) by now apply pixels_pos. cbn [bind].
  destruct (dither_table_good n d D) as (t & -> & T). cbn [bind]. rewrite !shifts_good. cbn [bind].
  rewrite (cat_good _ (subsampled_part e d n bx by_)); [reflexivity|]. intros p _. apply copies2_good. intros x y. now apply subsampled_at_good.
Qed.
Lemma volume_good bx by_ bz ps : volume_c n bx by_ bz ps = volume n bx by_ bz ps.
Proof.
  destruct start as (_ & A & Q). unfold volume_c, volume. rewrite A. cbn [bind]. rewrite Q. cbn [bind]. rewrite !shifts_good. cbn [bind].
  rewrite (cat_good _ (volume_part n bx by_ bz)); [reflexivity|]. intros p _. apply copies3_good. intros x y z. now apply voxel_at_good.
Qed.
Lemma limited_z_good ratio bx by_ bz ps : (1 <= ratio <= n)%Z -> limited_z_c n ratio bx by_ bz ps = limited_z n ratio bx by_ bz ps.
Proof.
  intros H. destruct start as (_ & _ & Q). unfold limited_z_c, limited_z. replace (ratio =? 0)%Z with false by (symmetry; apply Z.eqb_neq; lia).
  assert (Z0 : (0 < n / ratio)%Z) by (apply Z.div_str_pos; lia).
  rewrite alloc_good by (repeat constructor; lia). cbn [bind]. rewrite Q. cbn [bind]. rewrite (quot_ok 1 (IZR (n / ratio))) by now apply pixels_pos. cbn [bind]. unfold shifts_limited_c. cbn [bind].
  rewrite (cat_good _ (limited_part n ratio bx by_ bz)); [reflexivity|]. intros p _. apply copies3_good. intros x y z. now apply voxel_at_good.
Qed.
Lemma limited_z_flat ratio bx by_ bz ps : (n < ratio)%Z -> limited_z_c n ratio bx by_ bz ps = Err ZeroDivision.
Proof.
  intros H. destruct start as (_ & _ & Q). unfold limited_z_c. replace (ratio =? 0)%Z with false by (symmetry; apply Z.eqb_neq; lia). rewrite Z.div_small by lia.
  rewrite alloc_good by (repeat constructor; lia). cbn [bind]. rewrite Q. cbn [bind]. unfold quot. now destruct (Req_EM_T 0 0).
Qed.
Lemma limited_z_below ratio bx by_ bz ps : (ratio < 0)%Z -> limited_z_c n ratio bx by_ bz ps = Err ValueError.
Proof.
  intros H. unfold limited_z_c. replace (ratio =? 0)%Z with false by (symmetry; apply Z.eqb_neq; lia).
  assert (D : (n / ratio < 0)%Z). { pose proof (Z.div_mod n ratio). pose proof (Z.mod_neg_bound n ratio). nia. }
  unfold alloc, forallb. replace (0 <=? n / ratio)%Z with false by (symmetry; apply Z.leb_gt; lia). now rewrite !andb_false_r.
Qed.
End Sizes.

Lemma histogram_good n bx by_ ps : (0 <= n)%Z -> histogram_c n bx by_ ps = histogram n bx by_ ps.
Proof.
  intros N. unfold histogram_c, histogram. rewrite alloc_good by (repeat constructor; lia). cbn [bind]. rewrite !shifts_good. cbn [bind].
  rewrite (cat_good _ (histogram_part n bx by_)); [reflexivity|]. intros p _. now apply copies2_good.
Qed.

Lemma slice_good xres yres zs bx by_ bz ps : (0 < Z.max xres yres)%Z ->
  (Exists (point_in_slice (Z.max xres yres) zs bx by_ bz) ps -> slice_scatter_c xres yres zs bx by_ bz ps = Err ZeroDivision)
  /\ (~ Exists (point_in_slice (Z.max xres yres) zs bx by_ bz) ps -> slice_scatter_c xres yres zs bx by_ bz ps = slice_scatter xres yres zs bx by_ bz ps).
Proof.
  intros N. destruct (start _ N) as (A & _ & Q). unfold slice_scatter_c, slice_scatter. cbv zeta. rewrite A. cbn [bind]. rewrite Q. cbn [bind]. rewrite !shifts_good. cbn [bind].
  destruct (slice_all_cases _ zs bx by_ bz ps N) as [X Y]. split; intros H; [rewrite (X H)|rewrite (Y H)]; reflexivity.
Qed.

Lemma empty_images bx by_ bz ps :
  fast_c 0 bx by_ ps = Err ZeroDivision /\ renormalised_c 0 bx by_ ps = Err ZeroDivision /\ reference_c 0 bx by_ ps = Err ZeroDivision
  /\ (forall e d, subsampled_c e d 0 bx by_ ps = Err ZeroDivision) /\ volume_c 0 bx by_ bz ps = Err ZeroDivision
  /\ (forall zs a b, (Z.max a b = 0)%Z -> slice_scatter_c a b zs bx by_ bz ps = Err ZeroDivision)
  /\ (forall ratio, limited_z_c 0 ratio bx by_ bz ps = Err ZeroDivision).
Proof.
  assert (Q : quot 1 0 = Err ZeroDivision) by (unfold quot; now destruct (Req_EM_T 0 0)).
  split; [|split; [|split; [|split; [|split; [|split]]]]]; intros; [unfold fast_c|unfold renormalised_c|unfold reference_c|unfold subsampled_c|unfold volume_c|unfold slice_scatter_c; rewrite H|unfold limited_z_c].
  1-6: cbv zeta; cbn [alloc square cube forallb Z.leb Z.compare andb bind]; now rewrite Q.
  destruct (ratio =? 0)%Z; [reflexivity|]. cbv zeta. rewrite Zdiv_0_l. cbn [alloc forallb Z.leb Z.compare andb bind]. now rewrite Q.
Qed.

Lemma negative_images n bx by_ bz ps : (n < 0)%Z ->
  fast_c n bx by_ ps = Err ValueError /\ histogram_c n bx by_ ps = Err ValueError /\ renormalised_c n bx by_ ps = Err ValueError /\ reference_c n bx by_ ps = Err ValueError
  /\ (forall e d, subsampled_c e d n bx by_ ps = Err ValueError) /\ volume_c n bx by_ bz ps = Err ValueError
  /\ (forall zs a b, Z.max a b = n -> slice_scatter_c a b zs bx by_ bz ps = Err ValueError)
  /\ (forall ratio, ratio <> 0%Z -> limited_z_c n ratio bx by_ bz ps = Err ValueError).
Proof.
  intros N. assert (L : (0 <=? n)%Z = false) by (apply Z.leb_gt; lia).
  assert (Q : alloc (square n) = Err ValueError) by (unfold alloc, square, forallb; now rewrite L).
  assert (Q3 : alloc (cube n) = Err ValueError) by (unfold alloc, cube, forallb; now rewrite L).
  split; [|split; [|split; [|split; [|split; [|split; [|split]]]]]]; intros.
  - unfold fast_c; now rewrite Q. - unfold histogram_c; now rewrite Q. - unfold renormalised_c; now rewrite Q. - unfold reference_c; now rewrite Q.
  - unfold subsampled_c; now rewrite Q. - unfold volume_c; now rewrite Q3.
  - unfold slice_scatter_c. cbv zeta. rewrite H. now rewrite Q.
  - unfold limited_z_c. apply Z.eqb_neq in H. rewrite H. cbv zeta. unfold alloc, forallb. rewrite L. reflexivity.
Qed.

(** C115: images that are added up with rounded numbers. *)
From Coq Require Import List ZArith QArith Lia Lra Bool Floats.SpecFloat Reals Permutation Qreals.
From Flocq Require Import Core.
From Verif Require Import Base BaseLemmas RoundModel RoundSpec RoundFloatModel RoundTripProofs RoundSumModel RoundSumSpec RoundSumProofs.
From Verif Require VisModel VisSpec VisProofs VisSumProofs VisValueProofs PowerTheorems RoundExactTheorems RoundFloatTheorems.
Import ListNotations.
Open Scope R_scope.

#[local] Instance prec53 : Prec_gt_0 53. Proof. reflexivity. Qed.
#[local] Instance prec24 : Prec_gt_0 24. Proof. reflexivity. Qed.

(** * With exact numbers the images are those of VisModel.v *)

Notation exact_id := (fun x : R => x).
Lemma draw_exact ws c : draw RoundExactTheorems.exact exact_id ws c = VisSumProofs.value_at c ws.
Proof.
  induction ws as [|[d v] t IH] using rev_ind.
  - unfold draw, blank, zero. cbn [fold_left RoundExactTheorems.exact lit]. unfold VisSumProofs.value_at. cbn. apply RoundExactTheorems.lit_0.
  - unfold draw in *. rewrite fold_left_app. cbn [fold_left]. unfold bump at 1. cbn [fst snd RoundExactTheorems.exact add].
    rewrite VisSumProofs.value_at_app, <- IH. unfold VisSumProofs.value_at, VisModel.cell_eqb. cbn [map fst snd VisModel.sumR fold_right].
    destruct (list_eq_dec Z.eq_dec d c); [rewrite Rplus_0_r; reflexivity|]. rewrite Rplus_0_l, Rplus_0_r. reflexivity.
Qed.

Theorem C115_exact : forall s ws img, VisModel.render s ws = Ok img -> forall c, draw RoundExactTheorems.exact exact_id ws c = img c.
Proof.
  intros s ws img H c. rewrite draw_exact. symmetry. apply (VisSumProofs.render_value _ _ _ H).
Qed.

Lemma value_app a b c : VisSumProofs.value_at c (a ++ b) = VisSumProofs.value_at c a + VisSumProofs.value_at c b.
Proof. apply VisSumProofs.value_at_app. Qed.

Lemma pictures_exact {B} (pic : B -> picture RoundExactTheorems.exact) (ws : B -> list VisModel.write) l c :
  (forall b, pic b c = VisSumProofs.value_at c (ws b)) ->
  fold_left (fun out b => plus RoundExactTheorems.exact exact_id out (pic b)) l (blank RoundExactTheorems.exact) c
  = VisSumProofs.value_at c (flat_map ws l).
Proof.
  intro H. induction l as [|b l IH] using rev_ind.
  - unfold blank, zero, VisSumProofs.value_at. cbn. apply RoundExactTheorems.lit_0.
  - rewrite fold_left_app, flat_map_app, value_app. cbn [fold_left flat_map]. rewrite app_nil_r. unfold plus at 1.
    cbn [RoundExactTheorems.exact add]. rewrite <- H. apply f_equal2; [exact IH|reflexivity].
Qed.

Theorem C115_exact_parallel : forall s (f : VisModel.part -> list VisModel.write) g ps threads groups,
  (forall p, g (RoundExactTheorems.of_vis p) = f p) -> (forall p, In p ps -> VisSumProofs.ok_writes s (f p)) ->
  exists img, VisModel.parallel s s s f ps threads (concat groups) = Ok img
  /\ forall c, VisModel.in_bounds s c = true ->
       parallel RoundExactTheorems.exact exact_id g (map RoundExactTheorems.of_vis ps) threads groups c = img c.
Proof.
  intros s f g ps threads groups E Ok. destruct (VisProofs.reduce_value s s f ps threads (concat groups) VisModel.zeros Ok) as (img & I & V).
  exists img. split; [exact I|]. intros c C. rewrite V by exact C. unfold VisModel.zeros. rewrite Rplus_0_l.
  set (turn t := flat_map f (VisModel.slice ps (VisModel.thread_range (zlen ps) threads t))).
  assert (T : forall t, thread_picture RoundExactTheorems.exact exact_id g (map RoundExactTheorems.of_vis ps) threads t c
                        = VisSumProofs.value_at c (turn t)).
  { intro t. unfold thread_picture, turn. rewrite draw_exact. apply f_equal. unfold zlen. rewrite map_length.
    unfold VisModel.slice. rewrite skipn_map, firstn_map. generalize (firstn (Z.to_nat (snd (VisModel.thread_range (Z.of_nat (length ps)) threads t)
      - fst (VisModel.thread_range (Z.of_nat (length ps)) threads t))) (skipn (Z.to_nat (fst (VisModel.thread_range (Z.of_nat (length ps)) threads t))) ps)).
    induction l as [|p l IH]; cbn [map flat_map]; [reflexivity|]. rewrite E. apply f_equal. exact IH. }
  unfold parallel. rewrite (pictures_exact _ (flat_map turn)).
  - apply f_equal. clear T V I. induction groups as [|ts gs IH]; cbn [flat_map concat]; [reflexivity|].
    rewrite IH, !flat_map_app. apply f_equal2; [|reflexivity]. unfold turn. clear. induction ts as [|t ts IH]; cbn [flat_map]; [reflexivity|].
    rewrite flat_map_app, IH. reflexivity.
  - intro ts. unfold worker. apply pictures_exact. exact T.
Qed.

(** * How far a pixel is from the exact sum *)

Theorem C115_pixel : forall store u ws c, stored store u ->
  within_roundings u (times c ws) (summed Rabs c ws) (draw rounded store ws c) (summed (fun v => v) c ws).
Proof. intros store u ws c S. apply (pixel_close store u S). Qed.

(** The same with threads, however numba distributes their turns. *)
Theorem C115_parallel : forall store u f ps threads groups c, stored store u -> (1 <= threads)%Z ->
  Permutation (concat groups) (zrange 0 threads) ->
  within_roundings u (times c (flat_map f ps) + Z.to_nat threads + length groups) (summed Rabs c (flat_map f ps))
    (parallel rounded store f ps threads groups c) (summed (fun v => v) c (flat_map f ps)).
Proof. intros store u f ps threads groups c S T P. apply (parallel_close store u S); assumption. Qed.

(** So the images of two runs differ by no more than twice that. *)
Theorem C115_parallel_serial : forall store u f ps threads groups c, stored store u -> (1 <= threads)%Z ->
  Permutation (concat groups) (zrange 0 threads) ->
  within_roundings u (times c (flat_map f ps) + Z.to_nat threads + length groups) (2 * summed Rabs c (flat_map f ps))
    (parallel rounded store f ps threads groups c) (draw rounded store (flat_map f ps) c).
Proof.
  intros store u f ps threads groups c S T P. pose proof (parallel_close store u S f ps threads groups c T P) as W.
  pose proof (pixel_close store u S (flat_map f ps) c) as D.
  apply (closer store u S _ (times c (flat_map f ps) + Z.to_nat threads + length groups)) in D; [|lia|apply summed_nonneg].
  unfold within_roundings in *. rewrite Rabs_minus_sym in D.
  match goal with |- Rabs (?a - ?b) <= _ => match type of W with Rabs (_ - ?m) <= _ =>
    pose proof (Rabs_triang (a - m) (m - b)) as Tr; replace (a - m + (m - b)) with (a - b) in Tr by ring end end.
  eapply Rle_trans; [exact Tr|]. eapply Rle_trans; [apply Rplus_le_compat; [exact W|exact D]|]. right.
  match goal with |- ?q * ?x + ?q' * ?y = _ => change q' with q; change y with x; ring end.
Qed.

(** What the bound amounts to. *)
Theorem C115_roundings : forall u k, 0 <= u -> INR k * u <= / 2 -> (1 + u) ^ k - 1 <= 2 * (INR k * u).
Proof.
  intros u k U H.
  assert (B : forall k, 0 <= (1 + u) ^ k /\ (0 <= 1 - INR k * u -> (1 + u) ^ k * (1 - INR k * u) <= 1)).
  { clear k H. induction k as [|k (I0 & I)]; [cbn; split; [lra|intros; lra]|]. split; [cbn [pow]; apply Rmult_le_pos; [lra|exact I0]|].
    rewrite S_INR. cbn [pow]. intro N. pose proof (pos_INR k) as K. assert (KU : 0 <= INR k * u) by (apply Rmult_le_pos; assumption).
    specialize (I ltac:(nra)). eapply Rle_trans; [|exact I].
    replace ((1 + u) * (1 + u) ^ k * (1 - (INR k + 1) * u)) with ((1 + u) ^ k * ((1 - INR k * u) - u * (INR k * u + u))) by ring.
    apply Rmult_le_compat_l; [exact I0|]. assert (0 <= u * (INR k * u + u)) by (apply Rmult_le_pos; lra). lra. }
  destruct (B k) as (B0 & B1). set (q := (1 + u) ^ k) in *. set (x := INR k * u) in *.
  assert (X : 0 <= x) by (apply Rmult_le_pos; [apply pos_INR|exact U]). specialize (B1 ltac:(lra)). nra.
Qed.

(** With one thread nothing differs. *)
Theorem C115_one_thread : forall store u f ps c, stored store u ->
  parallel rounded store f ps 1 [[0%Z]] c = draw rounded store (flat_map f ps) c.
Proof.
  intros store u f ps c S. unfold parallel, worker. cbn [fold_left].
  assert (E : thread_picture rounded store f ps 1 0 = draw rounded store (flat_map f ps)).
  { unfold thread_picture. apply f_equal. apply f_equal. pose proof (VisProofs.slices_all _ ps 1 ltac:(lia)) as A.
    change (zrange 0 1) with [0%Z] in A. cbn [flat_map] in A. rewrite app_nil_r in A. exact A. }
  rewrite E. rewrite (plus_value store). unfold blank at 1. rewrite zero_rounded.
  rewrite (plus_blank store u S), Rplus_0_l. destruct (draw_stored store u S (flat_map f ps) c) as (x & X). rewrite X.
  apply (step_again store u S).
Qed.

(** * Order, size and weight *)

(** Larger values make no pixel smaller. *)
Theorem C115_order : forall store u ws ws' c, stored store u ->
  Forall2 (fun w w' => fst w = fst w' /\ snd w <= snd w') ws ws' -> draw rounded store ws c <= draw rounded store ws' c.
Proof. intros store u ws ws' c S. apply (draw_le store u S). Qed.

(** No pixel is smaller than one of the values that it is made of, if none is negative. *)
Theorem C115_at_least : forall store u ws c v, stored store u -> (forall w, In w ws -> 0 <= snd w) -> In (c, v) ws ->
  store (rnd 53 v) <= draw rounded store ws c.
Proof. intros store u ws c v S. apply (draw_at_least store u S). Qed.

(** Writes of zero change nothing. *)
Theorem C115_nothing : forall store u ws c, stored store u ->
  draw rounded store (filter (fun w => if Req_EM_T (snd w) 0 then false else true) ws) c = draw rounded store ws c.
Proof. intros store u ws c S. apply (draw_nothing store u S). Qed.

(** * Totals *)

Lemma sum_close {B} (a b s : B -> R) K l : (forall x, In x l -> Rabs (a x - b x) <= K * s x) ->
  Rabs (VisModel.sumR (map a l) - VisModel.sumR (map b l)) <= K * VisModel.sumR (map s l).
Proof.
  intro H. induction l as [|x l IH]; [cbn; rewrite Rminus_0_r, Rabs_R0; lra|]. cbn [map]. rewrite !VisSumProofs.sumR_cons.
  pose proof (H x (or_introl eq_refl)) as Hx. specialize (IH (fun y Hy => H y (or_intror Hy))).
  replace (a x + VisModel.sumR (map a l) - (b x + VisModel.sumR (map b l)))
    with (a x - b x + (VisModel.sumR (map a l) - VisModel.sumR (map b l))) by ring.
  eapply Rle_trans; [apply Rabs_triang|]. lra.
Qed.

Lemma total2_close n (a b s : list Z -> R) K : (forall c, Rabs (a c - b c) <= K * s c) ->
  Rabs (VisSpec.total2 n a - VisSpec.total2 n b) <= K * VisSpec.total2 n s.
Proof. intro H. unfold VisSpec.total2. apply sum_close. intros i _. apply sum_close. intros j _. apply H. Qed.
Lemma total3_close n (a b s : list Z -> R) K : (forall c, Rabs (a c - b c) <= K * s c) ->
  Rabs (VisSpec.total3 n a - VisSpec.total3 n b) <= K * VisSpec.total3 n s.
Proof. intro H. unfold VisSpec.total3. apply sum_close. intros i _. apply sum_close. intros j _. apply sum_close. intros k _. apply H. Qed.

Lemma summed_value g c ws : summed g c ws = VisSumProofs.value_at c (map (fun w => (fst w, g (snd w))) ws).
Proof.
  induction ws as [|[d v] t IH]; [reflexivity|]. cbn [summed map fst snd]. unfold VisSumProofs.value_at. cbn [map fst snd]. rewrite VisSumProofs.sumR_cons.
  unfold VisModel.cell_eqb at 1. rewrite IH. unfold VisSumProofs.value_at. destruct (list_eq_dec Z.eq_dec d c); reflexivity.
Qed.
Lemma times_length c ws : (times c ws <= length ws)%nat.
Proof. induction ws as [|[d v] t IH]; cbn [times length]; [lia|]. destruct (list_eq_dec Z.eq_dec d c); lia. Qed.

Lemma total2_summed n g ws : Forall (fun w => VisModel.in_bounds [n; n] (fst w) = true) ws ->
  VisSpec.total2 n (fun c => summed g c ws) = VisModel.sumR (map (fun w => g (snd w)) ws).
Proof.
  intro H. transitivity (VisSpec.total2 n (fun c => VisSumProofs.value_at c (map (fun w => (fst w, g (snd w))) ws))).
  - unfold VisSpec.total2. apply VisSumProofs.sumR_ext. intros i _. apply VisSumProofs.sumR_ext. intros j _. apply summed_value.
  - rewrite VisSumProofs.total2_value; [rewrite map_map; reflexivity|]. unfold VisSumProofs.ok_writes. rewrite Forall_map. exact H.
Qed.

Lemma total3_summed n g ws : Forall (fun w => VisModel.in_bounds [n; n; n] (fst w) = true) ws ->
  VisSpec.total3 n (fun c => summed g c ws) = VisModel.sumR (map (fun w => g (snd w)) ws).
Proof.
  induction 1 as [|[d v] t Hd _ IH]; cbn [map snd fst] in *.
  - cbn [summed]. unfold VisSpec.total3. rewrite VisSumProofs.sumR_zero; [reflexivity|]. intros i _. apply VisSumProofs.sumR_zero. intros j _.
    apply VisSumProofs.sumR_zero. reflexivity.
  - rewrite VisSumProofs.sumR_cons, <- IH, <- (PowerTheorems.pick3 n d (g v) Hd) at 1. rewrite <- PowerTheorems.total3_plus.
    apply PowerTheorems.total3_ext. intro c. cbn [summed]. reflexivity.
Qed.

(** The steps from pixels to masses: [K] roundings of each pixel, one of each value. *)
Lemma masses_close {B} (l : list B) (v m : B -> R) (V u total : R) K size : 0 <= u -> 0 <= V ->
  (forall b, In b l -> Rabs (v b - m b * V) <= u * (Rabs (m b) * V)) ->
  size = VisModel.sumR (map (fun b => Rabs (v b)) l) ->
  within_roundings u K size total (VisModel.sumR (map v l)) ->
  within_roundings u (S K) (V * VisModel.sumR (map (fun b => Rabs (m b)) l)) total (V * VisModel.sumR (map m l)).
Proof.
  intros U V0 H -> W. unfold within_roundings in *. cbn [pow]. pose proof (pow_R1_Rle (1 + u) K ltac:(lra)) as Q. set (q := (1 + u) ^ K) in *.
  assert (A : Rabs (VisModel.sumR (map v l) - VisModel.sumR (map (fun b => m b * V) l)) <= u * VisModel.sumR (map (fun b => Rabs (m b) * V) l))
    by (apply sum_close; exact H).
  rewrite !VisSumProofs.sumR_scal_r in A.
  assert (C : VisModel.sumR (map (fun b => Rabs (v b)) l) <= (1 + u) * (VisModel.sumR (map (fun b => Rabs (m b)) l) * V)).
  { rewrite <- VisSumProofs.sumR_scal_r, <- VisSumProofs.sumR_scal. apply VisSumProofs.sumR_le. intros b Hb. specialize (H b Hb).
    pose proof (Rabs_triang (v b - m b * V) (m b * V)) as T. replace (v b - m b * V + m b * V) with (v b) in T by ring.
    rewrite Rabs_mult, (Rabs_pos_eq V V0) in T. lra. }
  set (M := VisModel.sumR (map (fun b => Rabs (m b)) l)) in *. set (mm := VisModel.sumR (map m l)) in *.
  set (vv := VisModel.sumR (map v l)) in *. set (av := VisModel.sumR (map (fun b => Rabs (v b)) l)) in *.
  pose proof (Rabs_triang (total - vv) (vv - mm * V)) as T. replace (total - vv + (vv - mm * V)) with (total - V * mm) in T by ring.
  eapply Rle_trans; [exact T|]. assert ((q - 1) * av <= (q - 1) * ((1 + u) * (M * V))) by (apply Rmult_le_compat_l; lra). nra.
Qed.

Lemma int_sq n : (0 <= n < 2 ^ 26)%Z -> rnd 53 (IZR n * IZR n) = IZR n * IZR n.
Proof. intro N. rewrite <- mult_IZR. apply RoundFloatTheorems.rnd_id. apply RoundFloatTheorems.int_format; [lia|nia]. Qed.

Lemma in_bounds_exists s c : exists_in s c -> VisModel.in_bounds s c = true.
Proof. induction 1 as [|n i s c H _ IH]; cbn; [reflexivity|]. rewrite IH, andb_true_r. apply andb_true_iff. rewrite Z.leb_le, Z.ltb_lt. exact H. Qed.

(** A particle of the unit square whose position is a double. *)
Definition in_square (p : rpart rounded) : Prop :=
  fmt 53 (r_x p) /\ fmt 53 (r_y p) /\ 0 <= (r_x p) < 1 /\ 0 <= (r_y p) < 1.
Definition mass (p : rpart rounded) : R := (r_m p).

Lemma histogram_one n p : (1 <= n < 2 ^ 26)%Z -> in_square p -> exists c, exists_in [n; n] c
  /\ histogram_part rounded n 0 0 p = [(c, rnd 53 (mass p * (IZR n * IZR n)))].
Proof.
  intros N (Fx & Fy & X & Y). destruct p as [x y z m h]. unfold mass. cbn [r_x r_y r_m] in *.
  destruct (RoundFloatTheorems.C112_histogram n x y z m h ltac:(lia) Fx Fy X Y) as (i & j & E & I).
  exists [i; j]. split; [exact I|]. destruct (histogram_part rounded n 0 0 _) as [|[c v] [|? ?]] eqn:H; try discriminate. injection E as ->.
  f_equal. f_equal. assert (W : In ([i; j], v) (histogram_part rounded n 0 0 (@mk_rpart rounded x y z m h))) by (rewrite H; left; reflexivity).
  unfold histogram_part, copies2 in W. rewrite in_flat_map in W. destruct W as (a & _ & W). rewrite in_flat_map in W. destruct W as (b & _ & W).
  unfold histogram_at in W. cbv zeta in W. destruct (negb _) in W; [|destruct W]. destruct W as [W|[]]. injection W as _ _ <-.
  cbn [rounded mul double of_int r_m]. unfold rnd2. rewrite int_sq by lia. reflexivity.
Qed.

(** The mass of a histogram, of the serial function and with threads. *)
Theorem C115_histogram_mass : forall n ps, (1 <= n < 2 ^ 26)%Z -> Forall in_square ps ->
  let writes := flat_map (histogram_part rounded n 0 0) ps in
  let masses := VisModel.sumR (map mass ps) in
  let sizes := VisModel.sumR (map (fun p => Rabs (mass p)) ps) in
  within_roundings (eps 53) (S (length ps)) (IZR n * IZR n * sizes)
    (VisSpec.total2 n (draw rounded (double rounded) writes)) (IZR n * IZR n * masses)
  /\ forall threads groups, (1 <= threads)%Z -> Permutation (concat groups) (zrange 0 threads) ->
     within_roundings (eps 53) (S (length ps + Z.to_nat threads + length groups)) (IZR n * IZR n * sizes)
       (VisSpec.total2 n (parallel rounded (double rounded) (histogram_part rounded n 0 0) ps threads groups)) (IZR n * IZR n * masses).
Proof.
  intros n ps N P writes masses sizes.
  assert (W : length writes = length ps /\ Forall (fun w => VisModel.in_bounds [n; n] (fst w) = true) writes
              /\ map snd writes = map (fun p => rnd 53 (mass p * (IZR n * IZR n))) ps).
  { subst writes. clear masses sizes. induction P as [|p ps Hp _ (I0 & I1 & I2)]; [repeat split; constructor|]. cbn [flat_map].
    destruct (histogram_one n p N Hp) as (c & C & E). rewrite E. cbn [app length map snd]. rewrite I0, I2. split; [reflexivity|]. split; [|reflexivity].
    constructor; [apply in_bounds_exists; exact C|exact I1]. }
  destruct W as (L & B & V).
  assert (G : forall K img, (forall c, within_roundings (eps 53) K (summed Rabs c writes) (img c) (summed (fun v => v) c writes)) ->
    within_roundings (eps 53) (S K) (IZR n * IZR n * sizes) (VisSpec.total2 n img) (IZR n * IZR n * masses)).
  { intros K img H. subst masses sizes. apply (masses_close ps (fun p => rnd 53 (mass p * (IZR n * IZR n))) mass _ _ _ K
      (VisModel.sumR (map (fun p => Rabs (rnd 53 (mass p * (IZR n * IZR n)))) ps))); [left; apply eps_pos|apply Rle_0_sqr| |reflexivity|].
    - intros p _. pose proof (rnd_small 53 (mass p * (IZR n * IZR n)) ltac:(lia)) as R. rewrite Rabs_mult in R.
      rewrite (Rabs_pos_eq (IZR n * IZR n)) in R by apply Rle_0_sqr. rewrite (Rmult_comm _ (eps 53)) in R. exact R.
    - pose proof (total2_close n img (fun c => summed (fun v => v) c writes) (fun c => summed Rabs c writes) ((1 + eps 53) ^ K - 1) H) as T.
      unfold within_roundings. pose proof (total2_summed n (fun v => v) writes B) as E1. pose proof (total2_summed n Rabs writes B) as E2.
      assert (V2 : map (fun w => Rabs (snd w)) writes = map (fun p => Rabs (rnd 53 (mass p * (IZR n * IZR n)))) ps).
      { pose proof (f_equal (map Rabs) V) as V3. rewrite !map_map in V3. exact V3. }
      assert (V1 : map (fun w : list Z * R => snd w) writes = map (fun p => rnd 53 (mass p * (IZR n * IZR n))) ps) by exact V.
      assert (F1 : VisSpec.total2 n (fun c => summed (fun v => v) c writes) = VisModel.sumR (map (fun p => rnd 53 (mass p * (IZR n * IZR n))) ps))
        by exact (eq_trans E1 (f_equal VisModel.sumR V1)).
      assert (F2 : VisSpec.total2 n (fun c => summed Rabs c writes) = VisModel.sumR (map (fun p => Rabs (rnd 53 (mass p * (IZR n * IZR n)))) ps))
        by exact (eq_trans E2 (f_equal VisModel.sumR V2)).
      rewrite <- F1, <- F2. exact T. }
  split.
  - apply G. intro c. apply (closer (double rounded) (eps 53) stored_double) with (times c writes); [rewrite <- L; apply times_length|apply summed_nonneg|].
    apply pixel_close. constructor.
  - intros threads groups T Pm. apply G. intro c.
    apply (closer (double rounded) (eps 53) stored_double) with (times c writes + Z.to_nat threads + length groups)%nat;
      [pose proof (Nat.le_trans _ _ _ (times_length c writes) (Nat.eq_le_incl _ _ L)); lia|apply summed_nonneg|]. apply parallel_close; [constructor|exact T|exact Pm].
Qed.

(** * Depositions *)

Lemma power_format p e : (0 < p)%Z -> fmt p (bpow radix2 e).
Proof. intro P. apply generic_format_bpow. unfold FLX_exp. lia. Qed.

Lemma rnd_scale p e x : rnd p (bpow radix2 e * x) = bpow radix2 e * rnd p x.
Proof.
  destruct (Req_dec x 0) as [-> |N]; [rewrite Rmult_0_r, rn_zero; ring|].
  unfold rnd, round, scaled_mantissa, cexp, FLX_exp, F2R. cbn [Fnum Fexp]. rewrite (Rmult_comm (bpow radix2 e) x), mag_mult_bpow by exact N.
  replace (- (mag radix2 x + e - p))%Z with (- e + - (mag radix2 x - p))%Z by lia.
  replace (mag radix2 x + e - p)%Z with (e + (mag radix2 x - p))%Z by lia. rewrite !bpow_plus.
  replace (x * bpow radix2 e * (bpow radix2 (- e) * bpow radix2 (- (mag radix2 x - p)))) with (x * bpow radix2 (- (mag radix2 x - p)) * (bpow radix2 e * bpow radix2 (- e))) by ring.
  rewrite <- bpow_plus, Z.add_opp_diag_r, Rmult_1_r. ring.
Qed.

Lemma volume_exact n e : (1 <= n < 2 ^ 17)%Z ->
  mul rounded (mul rounded (mul rounded (single rounded (of_int rounded n)) (single rounded (of_int rounded n))) (single rounded (of_int rounded n)))
    (mul rounded (mul rounded (bpow radix2 e) (bpow radix2 e)) (bpow radix2 e)) = IZR n * IZR n * IZR n * bpow radix2 (3 * e).
Proof.
  intro N. cbn [rounded mul single of_int]. unfold rnd2. rewrite RoundFloatTheorems.single_int by lia. rewrite int_sq by lia.
  assert (P : forall a, rnd 53 (bpow radix2 a) = bpow radix2 a) by (intro a; apply RoundFloatTheorems.rnd_id; apply power_format; lia).
  rewrite <- !bpow_plus, !P, <- bpow_plus, P. rewrite <- !mult_IZR.
  rewrite (RoundFloatTheorems.rnd_id (IZR (n * n * n))) by (apply RoundFloatTheorems.int_format; [lia|nia]).
  rewrite (Rmult_comm (IZR (n * n * n))), rnd_scale, RoundFloatTheorems.rnd_id by (apply RoundFloatTheorems.int_format; [lia|nia]).
  rewrite Rmult_comm. do 2 f_equal. lia.
Qed.

(** Inside the folded box, up to the last bits before its edge (C112). *)
Definition in_folded (box fold x : R) : Prop :=
  let b := RoundFloatTheorems.folded_box box fold in 0 < b /\ 0 <= x <= b * (1 - / 2 ^ 51).

Theorem C115_deposit_mass : forall n e bx by_ bz ps, (1 <= n < 2 ^ 17)%Z ->
  let fold := bpow radix2 e in
  Forall (fun p : rpart rounded => in_folded bx fold (r_x p) /\ in_folded by_ fold (r_y p) /\ in_folded bz fold (r_z p)) ps ->
  let u := eps 24 + eps 53 + eps 24 * eps 53 in
  let volume := (IZR n * fold) ^ 3 in
  let masses := VisModel.sumR (map mass ps) in
  let sizes := VisModel.sumR (map (fun p => Rabs (mass p)) ps) in
  within_roundings u (S (length ps)) (volume * sizes)
    (VisSpec.total3 n (draw rounded (single rounded) (flat_map (deposit_part rounded n fold bx by_ bz) ps))) (volume * masses)
  /\ forall threads groups, (1 <= threads)%Z -> Permutation (concat groups) (zrange 0 threads) ->
     within_roundings u (S (length ps + Z.to_nat threads + length groups)) (volume * sizes)
       (VisSpec.total3 n (parallel rounded (single rounded) (deposit_part rounded n fold bx by_ bz) ps threads groups)) (volume * masses).
Proof.
  intros n e bx by_ bz ps N fold P u volume masses sizes. set (writes := flat_map (deposit_part rounded n fold bx by_ bz) ps).
  assert (Vol : 0 <= volume). { apply pow_le. apply Rmult_le_pos; [apply IZR_le; lia|left; apply bpow_gt_0]. }
  assert (W : length writes = length ps /\ Forall (fun w => VisModel.in_bounds [n; n; n] (fst w) = true) writes
              /\ map snd writes = map (fun p => rnd 53 (mass p * volume)) ps).
  { subst writes. clear masses sizes. induction P as [|p ps ((Bx & X) & (By & Y) & (Bz & Z)) _ (I0 & I1 & I2)]; [repeat split; constructor|].
    cbn [flat_map]. unfold deposit_part at 1 3 5. cbv zeta. cbn [app length map snd]. rewrite I0. split; [reflexivity|]. split.
    - constructor; [|exact I1]. apply in_bounds_exists. cbn [fst]. repeat constructor;
        apply RoundFloatTheorems.C112_deposit_inside; try assumption; lia.
    - rewrite <- I2. apply f_equal2; [|reflexivity]. unfold fold. pose proof (volume_exact n e N) as V.
      replace volume with (IZR n * IZR n * IZR n * bpow radix2 (3 * e)); [rewrite <- V; reflexivity|].
      unfold volume, fold. rewrite Rpow_mult_distr. replace (3 * e)%Z with (e + e + e)%Z by lia. rewrite !bpow_plus. ring. }
  destruct W as (L & B & V).
  assert (S24 : stored (single rounded) u) by constructor. pose proof (u_pos _ _ S24) as U.
  assert (G : forall K img, (forall c, within_roundings u K (summed Rabs c writes) (img c) (summed (fun v => v) c writes)) ->
    within_roundings u (S K) (volume * sizes) (VisSpec.total3 n img) (volume * masses)).
  { intros K img H. subst masses sizes. apply (masses_close ps (fun p => rnd 53 (mass p * volume)) mass _ _ _ K
      (VisModel.sumR (map (fun p => Rabs (rnd 53 (mass p * volume))) ps))); [exact U|exact Vol| |reflexivity|].
    - intros p _. pose proof (rnd_small 53 (mass p * volume) ltac:(lia)) as R. rewrite Rabs_mult in R.
      rewrite (Rabs_pos_eq volume Vol), (Rmult_comm _ (eps 53)) in R. eapply Rle_trans; [exact R|]. apply Rmult_le_compat_r.
      + apply Rmult_le_pos; [apply Rabs_pos|exact Vol].
      + unfold u. pose proof (eps_pos 24). pose proof (eps_pos 53). nra.
    - pose proof (total3_close n img (fun c => summed (fun v => v) c writes) (fun c => summed Rabs c writes) ((1 + u) ^ K - 1) H) as T.
      unfold within_roundings. pose proof (total3_summed n (fun v => v) writes B) as E1. pose proof (total3_summed n Rabs writes B) as E2.
      assert (V2 : map (fun w => Rabs (snd w)) writes = map (fun p => Rabs (rnd 53 (mass p * volume))) ps).
      { pose proof (f_equal (map Rabs) V) as V3. rewrite !map_map in V3. exact V3. }
      assert (V1 : map (fun w : list Z * R => snd w) writes = map (fun p => rnd 53 (mass p * volume)) ps) by exact V.
      assert (F1 : VisSpec.total3 n (fun c => summed (fun v => v) c writes) = VisModel.sumR (map (fun p => rnd 53 (mass p * volume)) ps))
        by exact (eq_trans E1 (f_equal VisModel.sumR V1)).
      assert (F2 : VisSpec.total3 n (fun c => summed Rabs c writes) = VisModel.sumR (map (fun p => Rabs (rnd 53 (mass p * volume))) ps))
        by exact (eq_trans E2 (f_equal VisModel.sumR V2)).
      rewrite <- F1, <- F2. exact T. }
  split.
  - apply G. intro c. apply (closer _ _ S24) with (times c writes); [rewrite <- L; apply times_length|apply summed_nonneg|].
    apply pixel_close. exact S24.
  - intros threads groups T Pm. apply G. intro c.
    apply (closer _ _ S24) with (times c writes + Z.to_nat threads + length groups)%nat;
      [pose proof (Nat.le_trans _ _ _ (times_length c writes) (Nat.eq_le_incl _ _ L)); lia|apply summed_nonneg|]. apply parallel_close; [exact S24|exact T|exact Pm].
Qed.

Print Assumptions C115_exact.
Print Assumptions C115_exact_parallel.
Print Assumptions C115_pixel.
Print Assumptions C115_parallel.
Print Assumptions C115_parallel_serial.
Print Assumptions C115_roundings.
Print Assumptions C115_one_thread.
Print Assumptions C115_order.
Print Assumptions C115_at_least.
Print Assumptions C115_nothing.
Print Assumptions C115_histogram_mass.
Print Assumptions C115_deposit_mass.

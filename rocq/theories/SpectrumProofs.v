(** Lemmas about sums over grids and discrete Fourier transforms. *)
From Coq Require Import List ZArith Znumtheory Reals Bool Lra Lia Psatz.
From Verif Require Import Base BaseLemmas VisModel VisSpec VisSumProofs SpectrumModel SpectrumSpec.
Import ListNotations.
Open Scope R_scope.

(** * Sums over the grid *)

Definition S3 (n : Z) (f : image) : R := sumR (map f (cells n)).

Lemma sumR_flat_map' : forall A B (f : B -> R) (g : A -> list B) l,
  sumR (map f (flat_map g l)) = sumR (map (fun a => sumR (map f (g a))) l).
Proof.
  intros A B f g l. induction l as [|a t IH]; [reflexivity|]. cbn [flat_map map].
  rewrite map_app, sumR_app, sumR_cons, IH. reflexivity.
Qed.

Lemma S3_total : forall n f, S3 n f = total3 n f.
Proof.
  intros n f. unfold S3, cells, total3. rewrite sumR_flat_map'. apply sumR_ext. intros i _.
  rewrite sumR_flat_map'. apply sumR_ext. intros j _. rewrite map_map. reflexivity.
Qed.

Definition in3 (n : Z) (c : cell) : Prop :=
  exists i j k, c = [i; j; k] /\ (0 <= i < n)%Z /\ (0 <= j < n)%Z /\ (0 <= k < n)%Z.

Lemma in_cells : forall n c, In c (cells n) <-> in3 n c.
Proof.
  intros n c. unfold cells, in3. rewrite in_flat_map. split.
  - intros (i & Hi & H). apply in_flat_map in H. destruct H as (j & Hj & H). apply in_map_iff in H.
    destruct H as (k & <- & Hk). apply In_zrange in Hi, Hj, Hk. exists i, j, k. auto.
  - intros (i & j & k & -> & Hi & Hj & Hk). exists i. rewrite In_zrange. split; [lia|].
    apply in_flat_map. exists j. rewrite In_zrange. split; [lia|]. apply in_map_iff. exists k. split; [reflexivity|]. apply In_zrange. lia.
Qed.

Lemma S3_ext : forall n f g, (forall c, in3 n c -> f c = g c) -> S3 n f = S3 n g.
Proof. intros n f g H. apply sumR_ext. intros c Hc. apply H. apply in_cells. exact Hc. Qed.
Lemma S3_plus : forall n f g, S3 n (fun c => f c + g c) = S3 n f + S3 n g.
Proof. intros. apply sumR_plus. Qed.
Lemma S3_scal : forall n k f, S3 n (fun c => k * f c) = k * S3 n f.
Proof. intros. apply sumR_scal. Qed.
Lemma S3_scal_r : forall n k f, S3 n (fun c => f c * k) = S3 n f * k.
Proof. intros. apply sumR_scal_r. Qed.
Lemma S3_opp : forall n f, S3 n (fun c => - f c) = - S3 n f.
Proof.
  intros n f. rewrite <- (Rmult_1_l (S3 n f)), Ropp_mult_distr_l, <- S3_scal.
  apply S3_ext. intros. ring.
Qed.
Lemma S3_swap : forall n m f, S3 n (fun x => S3 m (f x)) = S3 m (fun y => S3 n (fun x => f x y)).
Proof. intros. apply sumR_swap. Qed.

Lemma sumR_const : forall A (l : list A) v, sumR (map (fun _ => v) l) = INR (length l) * v.
Proof.
  intros A l v. induction l as [|a t IH]; [cbn; ring|]. cbn [map length]. rewrite sumR_cons, IH, S_INR. ring.
Qed.
Lemma INR_zrange : forall n, (0 <= n)%Z -> INR (length (zrange 0 n)) = IZR n.
Proof. intros n H. rewrite zrange_length, INR_IZR_INZ. f_equal. lia. Qed.
Lemma S3_const : forall n v, (0 <= n)%Z -> S3 n (fun _ => v) = IZR n * IZR n * IZR n * v.
Proof.
  intros n v H. rewrite S3_total. unfold total3.
  rewrite (sumR_ext _ _ (fun _ => IZR n * (IZR n * v))).
  - rewrite sumR_const, INR_zrange by exact H. ring.
  - intros i _. rewrite (sumR_ext _ _ (fun _ => IZR n * v)).
    + rewrite sumR_const, INR_zrange by exact H. ring.
    + intros j _. rewrite sumR_const, INR_zrange by exact H. ring.
Qed.

Lemma S3_swap12 : forall n f, S3 n (swap12 f) = S3 n f.
Proof. intros n f. rewrite !S3_total. unfold total3, swap12. apply sumR_swap. Qed.
Lemma S3_swap23 : forall n f, S3 n (swap23 f) = S3 n f.
Proof. intros n f. rewrite !S3_total. unfold total3, swap23. apply sumR_ext. intros i _. apply sumR_swap. Qed.

(** * Moving along the periodic grid *)

Lemma zrange_app : forall a b c, (a <= b <= c)%Z -> zrange a c = zrange a b ++ zrange b c.
Proof.
  intros a b c H. replace c with (b + Z.of_nat (Z.to_nat (c - b)))%Z by lia.
  generalize (Z.to_nat (c - b)). intro m. induction m as [|m IH].
  - rewrite Z.add_0_r, (zrange_nil b b) by lia. rewrite app_nil_r. reflexivity.
  - replace (b + Z.of_nat (S m))%Z with (b + Z.of_nat m + 1)%Z by lia.
    rewrite !zrange_snoc by lia. rewrite IH, app_assoc. reflexivity.
Qed.
Lemma zrange_shift : forall a b t, zrange (a + t) (b + t) = map (fun i => (i + t)%Z) (zrange a b).
Proof.
  intros a b t. unfold zrange. rewrite map_map. replace (b + t - (a + t))%Z with (b - a)%Z by lia.
  apply map_ext. intros. lia.
Qed.

Lemma sum_rotate : forall n s (g : Z -> R), (1 <= n)%Z ->
  sumR (map (fun i => g ((i + s) mod n)%Z) (zrange 0 n)) = sumR (map g (zrange 0 n)).
Proof.
  intros n s g Hn. set (t := (s mod n)%Z). pose proof (Z.mod_pos_bound s n ltac:(lia)) as Ht. fold t in Ht.
  assert (E : forall i, ((i + s) mod n = (i + t) mod n)%Z).
  { intro i. unfold t. rewrite Zplus_mod_idemp_r. reflexivity. }
  transitivity (sumR (map (fun i => g ((i + s) mod n)%Z) (zrange 0 (n - t) ++ zrange (n - t) n)));
    [rewrite <- zrange_app by lia; reflexivity|].
  transitivity (sumR (map g (zrange 0 t ++ zrange t n))); [|rewrite <- zrange_app by lia; reflexivity].
  rewrite !map_app, !sumR_app, Rplus_comm. f_equal.
  - replace (zrange (n - t) n) with (map (fun i => (i + (n - t))%Z) (zrange 0 t)).
    + rewrite map_map. apply sumR_ext. intros i Hi. apply In_zrange in Hi. rewrite E. f_equal.
      replace (i + (n - t) + t)%Z with (i + 1 * n)%Z by lia. rewrite Z.mod_add by lia. apply Z.mod_small. lia.
    + rewrite <- zrange_shift. f_equal; lia.
  - replace (zrange t n) with (map (fun i => (i + t)%Z) (zrange 0 (n - t))).
    + rewrite map_map. apply sumR_ext. intros i Hi. apply In_zrange in Hi. rewrite E. f_equal.
      apply Z.mod_small. lia.
    + rewrite <- zrange_shift. f_equal; lia.
Qed.

Lemma S3_moved : forall n a b c f, (1 <= n)%Z -> S3 n (moved_grid n [a; b; c] f) = S3 n f.
Proof.
  intros n a b c f Hn. rewrite !S3_total. unfold total3, moved_grid. cbn [combine map fst snd].
  rewrite (sum_rotate n a (fun i => sumR (map (fun j => sumR (map (fun k => f [i; (j + b) mod n; (k + c) mod n]%Z)
    (zrange 0 n))) (zrange 0 n))) Hn).
  apply sumR_ext. intros i _.
  rewrite (sum_rotate n b (fun j => sumR (map (fun k => f [i; j; (k + c) mod n]%Z) (zrange 0 n))) Hn).
  apply sumR_ext. intros j _. apply (sum_rotate n c (fun k => f [i; j; k]) Hn).
Qed.

(** * Periods *)

Lemma cos_turns : forall x q, cos (x + 2 * PI * IZR q) = cos x.
Proof.
  intros x q. destruct (Z_le_gt_dec 0 q) as [H|H].
  - replace (2 * PI * IZR q) with (2 * INR (Z.to_nat q) * PI); [apply cos_period|].
    rewrite INR_IZR_INZ, Z2Nat.id by lia. ring.
  - rewrite <- (cos_period _ (Z.to_nat (- q))). f_equal.
    rewrite INR_IZR_INZ, Z2Nat.id by lia. rewrite opp_IZR. ring.
Qed.
Lemma sin_turns : forall x q, sin (x + 2 * PI * IZR q) = sin x.
Proof.
  intros x q. destruct (Z_le_gt_dec 0 q) as [H|H].
  - replace (2 * PI * IZR q) with (2 * INR (Z.to_nat q) * PI); [apply sin_period|].
    rewrite INR_IZR_INZ, Z2Nat.id by lia. ring.
  - rewrite <- (sin_period _ (Z.to_nat (- q))). f_equal.
    rewrite INR_IZR_INZ, Z2Nat.id by lia. rewrite opp_IZR. ring.
Qed.

Definition turn (n a : Z) : R := 2 * PI * IZR a / IZR n.
Lemma turn_plus : forall n a b, (1 <= n)%Z -> turn n (a + b) = turn n a + turn n b.
Proof. intros n a b H. unfold turn. rewrite plus_IZR. field. apply not_0_IZR. lia. Qed.
Lemma turn_opp : forall n a, (1 <= n)%Z -> turn n (- a) = - turn n a.
Proof. intros n a H. unfold turn. rewrite opp_IZR. field. apply not_0_IZR. lia. Qed.
Lemma turn_minus : forall n a b, (1 <= n)%Z -> turn n (a - b) = turn n a - turn n b.
Proof. intros n a b H. unfold Z.sub. rewrite turn_plus, turn_opp by exact H. ring. Qed.
Lemma turn_mult : forall n q, (1 <= n)%Z -> turn n (q * n) = 2 * PI * IZR q.
Proof. intros n q H. unfold turn. rewrite mult_IZR. field. apply not_0_IZR. lia. Qed.
Lemma turn_refine : forall n f a, (1 <= n)%Z -> (1 <= f)%Z -> turn (f * n) (f * a) = turn n a.
Proof. intros n f a H G. unfold turn. rewrite !mult_IZR. field. split; apply not_0_IZR; lia. Qed.
Lemma cos_turn_mod : forall n a b q, (1 <= n)%Z -> (a = b + q * n)%Z -> cos (turn n a) = cos (turn n b).
Proof. intros n a b q H ->. rewrite turn_plus, turn_mult by exact H. apply cos_turns. Qed.
Lemma sin_turn_mod : forall n a b q, (1 <= n)%Z -> (a = b + q * n)%Z -> sin (turn n a) = sin (turn n b).
Proof. intros n a b q H ->. rewrite turn_plus, turn_mult by exact H. apply sin_turns. Qed.

(** * The transform *)

Definition Fc (n : Z) (f : image) (k : cell) : R := S3 n (fun x => f x * cos (turn n (dot k x))).
Definition Fs (n : Z) (f : image) (k : cell) : R := S3 n (fun x => f x * sin (turn n (dot k x))).

Lemma dot_inner : forall k x, dot k x = inner k x.
Proof. induction k as [|a k IH]; intros [|b x]; try reflexivity. cbn [dot]. rewrite IH. reflexivity. Qed.

Lemma fftn_cs : forall n f k, fftn n f k = (Fc n f k, - Fs n f k).
Proof. reflexivity. Qed.

Lemma real_product : forall n f g k,
  fst (cmul (fftn n f k) (conj (fftn n g k))) = Fc n f k * Fc n g k + Fs n f k * Fs n g k.
Proof. intros. rewrite !fftn_cs. unfold cmul, conj. cbn [fst snd]. ring. Qed.

Lemma F_ext : forall n f g k, (forall c, in3 n c -> f c = g c) -> Fc n f k = Fc n g k /\ Fs n f k = Fs n g k.
Proof. intros n f g k H. split; apply S3_ext; intros c Hc; rewrite (H c Hc); reflexivity. Qed.
Lemma F_scal : forall n a f k, Fc n (fun c => a * f c) k = a * Fc n f k /\ Fs n (fun c => a * f c) k = a * Fs n f k.
Proof. intros n a f k. unfold Fc, Fs. rewrite <- !S3_scal. split; apply S3_ext; intros; ring. Qed.

Lemma dot_moved : forall n a b c k0 k1 k2 x, (1 <= n)%Z -> in3 n x ->
  exists q, dot [k0; k1; k2] (map (fun p => ((fst p + snd p) mod n)%Z) (combine x [a; b; c]))
            = (dot [k0; k1; k2] x + dot [k0; k1; k2] [a; b; c] + q * n)%Z.
Proof.
  intros n a b c k0 k1 k2 x Hn (i & j & l & -> & _). cbn [combine map fst snd dot].
  exists (- (k0 * ((i + a) / n) + k1 * ((j + b) / n) + k2 * ((l + c) / n)))%Z.
  rewrite !Z.mod_eq by lia. ring.
Qed.

Lemma F_moved : forall n a b c f k0 k1 k2, (1 <= n)%Z ->
  let k := [k0; k1; k2] in let t := turn n (dot k [a; b; c]) in
  Fc n (moved_grid n [a; b; c] f) k = cos t * Fc n f k + sin t * Fs n f k
  /\ Fs n (moved_grid n [a; b; c] f) k = cos t * Fs n f k - sin t * Fc n f k.
Proof.
  intros n a b c f k0 k1 k2 Hn k t. unfold Fc, Fs. split.
  - rewrite <- !S3_scal, <- S3_plus.
    rewrite <- (S3_moved n a b c (fun x => cos t * (f x * cos (turn n (dot k x))) + sin t * (f x * sin (turn n (dot k x)))) Hn).
    apply S3_ext. intros x Hx. unfold moved_grid. destruct (dot_moved n a b c k0 k1 k2 x Hn Hx) as (q & E).
    fold k in E. set (y := map _ _) in *.
    replace (cos t * (f y * cos (turn n (dot k y))) + sin t * (f y * sin (turn n (dot k y))))
      with (f y * cos (turn n (dot k y) - t)) by (rewrite cos_minus; ring).
    f_equal. unfold t. rewrite <- turn_minus by exact Hn. symmetry. apply (cos_turn_mod n _ _ q Hn). lia.
  - unfold Rminus at 1. rewrite (Ropp_mult_distr_l (sin t)). rewrite <- !S3_scal, <- S3_plus.
    rewrite <- (S3_moved n a b c (fun x => cos t * (f x * sin (turn n (dot k x))) + - sin t * (f x * cos (turn n (dot k x)))) Hn).
    apply S3_ext. intros x Hx. unfold moved_grid. destruct (dot_moved n a b c k0 k1 k2 x Hn Hx) as (q & E).
    fold k in E. set (y := map _ _) in *.
    replace (cos t * (f y * sin (turn n (dot k y))) + - sin t * (f y * cos (turn n (dot k y))))
      with (f y * sin (turn n (dot k y) - t)) by (rewrite sin_minus; ring).
    f_equal. unfold t. rewrite <- turn_minus by exact Hn. symmetry. apply (sin_turn_mod n _ _ q Hn). lia.
Qed.

Lemma S3_prod : forall n f g, S3 n f * S3 n g = S3 n (fun x => S3 n (fun y => f x * g y)).
Proof.
  intros n f g. rewrite <- S3_scal_r. apply S3_ext. intros x _. rewrite S3_scal. reflexivity.
Qed.

(** Products of transforms are transforms of correlations. *)
Lemma correlation : forall n f g k, (1 <= n)%Z ->
  Fc n f k * Fc n g k + Fs n f k * Fs n g k
  = S3 n (fun x => S3 n (fun y => f x * g y * cos (turn n (dot k x - dot k y)))).
Proof.
  intros n f g k Hn. unfold Fc, Fs. rewrite !S3_prod, <- S3_plus. apply S3_ext. intros x _.
  rewrite <- S3_plus. apply S3_ext. intros y _. rewrite turn_minus by exact Hn. rewrite cos_minus. ring.
Qed.

(** * Overdensities *)

Definition N3 (n : Z) : R := IZR n * IZR n * IZR n.
Lemma N3_pos : forall n, (1 <= n)%Z -> 0 < N3 n.
Proof.
  intros n H. assert (0 < IZR n) by (apply IZR_lt; lia). unfold N3.
  repeat apply Rmult_lt_0_compat; assumption.
Qed.

Lemma np_mean_S3 : forall n f, np_mean n f = S3 n f / N3 n.
Proof. reflexivity. Qed.

Lemma overdensity_deviation : forall n f c, np_mean n f <> 0 -> overdensity n f c = deviation n f c.
Proof.
  intros n f c H. unfold overdensity, deviation. rewrite <- S3_total.
  replace (S3 n f / IZR n ^ 3) with (np_mean n f); [field; exact H|].
  rewrite np_mean_S3. unfold N3. f_equal. ring.
Qed.

Lemma overdensity_moved : forall n a b c f x, (1 <= n)%Z ->
  overdensity n (moved_grid n [a; b; c] f) x = moved_grid n [a; b; c] (overdensity n f) x.
Proof.
  intros n a b c f x Hn. unfold overdensity. rewrite !np_mean_S3, S3_moved by exact Hn. reflexivity.
Qed.

Lemma amplitude_cs : forall n f g L k,
  let F := fun h => Fc n (fun c => overdensity n h c / N3 n) k in
  let G := fun h => Fs n (fun c => overdensity n h c / N3 n) k in
  amplitude n f g L k = (F f * F g + G f * G g) * (L * L * L).
Proof. intros. unfold amplitude, contrast. rewrite real_product. reflexivity. Qed.

Lemma amplitude_power : forall n f g L k, (1 <= n)%Z -> np_mean n f <> 0 -> np_mean n g <> 0 ->
  amplitude n f g L k = L ^ 3 * mode_power n f g k.
Proof.
  intros n f g L k Hn Hf Hg. pose proof (N3_pos n Hn) as P. rewrite amplitude_cs. cbn beta zeta. rewrite correlation by exact Hn.
  unfold mode_power. rewrite <- S3_total.
  assert (E : S3 n (fun x => total3 n (fun y => deviation n f x * deviation n g y
                * cos (2 * PI * IZR (inner k x - inner k y) / IZR n)))
            = N3 n * N3 n * S3 n (fun x => S3 n (fun y => overdensity n f x / N3 n * (overdensity n g y / N3 n)
                * cos (turn n (dot k x - dot k y))))).
  { rewrite <- S3_scal. apply S3_ext. intros x _. rewrite <- S3_total, <- S3_scal. apply S3_ext. intros y _.
    rewrite !overdensity_deviation by assumption. rewrite !dot_inner. unfold turn. field. lra. }
  rewrite E. replace (IZR n ^ 6) with (N3 n * N3 n) by (unfold N3; ring). field. lra.
Qed.

Lemma amplitude_moved : forall n a b c f g L k, (1 <= n)%Z -> in3 n k ->
  amplitude n (moved_grid n [a; b; c] f) (moved_grid n [a; b; c] g) L k = amplitude n f g L k.
Proof.
  intros n a b c f g L k Hn (k0 & k1 & k2 & -> & _). rewrite !amplitude_cs. cbn beta zeta.
  assert (E : forall h, (forall x, in3 n x -> overdensity n (moved_grid n [a; b; c] h) x / N3 n
              = moved_grid n [a; b; c] (fun x => overdensity n h x / N3 n) x)).
  { intros h x _. rewrite overdensity_moved by exact Hn. reflexivity. }
  rewrite (proj1 (F_ext _ _ _ _ (E f))), (proj2 (F_ext _ _ _ _ (E f))),
          (proj1 (F_ext _ _ _ _ (E g))), (proj2 (F_ext _ _ _ _ (E g))).
  rewrite (proj1 (F_moved n a b c _ k0 k1 k2 Hn)), (proj2 (F_moved n a b c (fun x => overdensity n f x / N3 n) k0 k1 k2 Hn)).
  rewrite (proj1 (F_moved n a b c (fun x => overdensity n g x / N3 n) k0 k1 k2 Hn)), (proj2 (F_moved n a b c (fun x => overdensity n g x / N3 n) k0 k1 k2 Hn)).
  set (t := turn _ _). pose proof (sin2_cos2 t) as T. unfold Rsqr in T.
  set (A := Fc n _ _). set (B := Fs n _ _). set (C := Fc n _ _). set (D := Fs n _ _).
  f_equal. replace (A * C + B * D) with ((sin t * sin t + cos t * cos t) * (A * C + B * D)) by (rewrite T; ring). ring.
Qed.

Lemma overdensity_scale : forall n f a c, (1 <= n)%Z -> a <> 0 -> np_mean n f <> 0 ->
  overdensity n (fun c => a * f c) c = overdensity n f c.
Proof.
  intros n f a c Hn Ha Hf. unfold overdensity.
  assert (E : np_mean n (fun c => a * f c) = a * np_mean n f).
  { rewrite !np_mean_S3, S3_scal. unfold Rdiv. ring. }
  rewrite E. field. split; assumption.
Qed.

Lemma amplitude_ext : forall n f f' g g' L k,
  (forall c, in3 n c -> overdensity n f c = overdensity n f' c) ->
  (forall c, in3 n c -> overdensity n g c = overdensity n g' c) ->
  amplitude n f g L k = amplitude n f' g' L k.
Proof.
  intros n f f' g g' L k Hf Hg. rewrite !amplitude_cs. cbn beta zeta.
  assert (E : forall h h', (forall c, in3 n c -> overdensity n h c = overdensity n h' c) ->
     forall x, in3 n x -> overdensity n h x / N3 n = overdensity n h' x / N3 n).
  { intros h h' H x Hx. rewrite (H x Hx). reflexivity. }
  rewrite (proj1 (F_ext _ _ _ _ (E f f' Hf))), (proj2 (F_ext _ _ _ _ (E f f' Hf))),
          (proj1 (F_ext _ _ _ _ (E g g' Hg))), (proj2 (F_ext _ _ _ _ (E g g' Hg))). reflexivity.
Qed.

Lemma amplitude_sym : forall n f g L k, amplitude n f g L k = amplitude n g f L k.
Proof. intros. rewrite !amplitude_cs. cbn beta zeta. ring. Qed.

Lemma amplitude_nonneg : forall n f L k, 0 <= L -> 0 <= amplitude n f f L k.
Proof.
  intros n f L k H. rewrite amplitude_cs. cbn beta zeta. apply Rmult_le_pos.
  - apply Rplus_le_le_0_compat; apply Rle_0_sqr.
  - repeat apply Rmult_le_pos; exact H.
Qed.

Lemma amplitude_uniform : forall n f g L k v, (1 <= n)%Z -> (forall c, in3 n c -> f c = v) -> v <> 0 ->
  amplitude n f g L k = 0.
Proof.
  intros n f g L k v Hn H Hv. pose proof (N3_pos n Hn) as P.
  assert (M : np_mean n f = v).
  { rewrite np_mean_S3, (S3_ext n f (fun _ => v) H), S3_const by lia. fold (N3 n). field. lra. }
  assert (E : forall c, in3 n c -> overdensity n f c / N3 n = 0 * (fun _ => 0) c).
  { intros c Hc. unfold overdensity. rewrite M, (H c Hc). unfold Rdiv. ring. }
  rewrite amplitude_cs. cbn beta zeta.
  rewrite (proj1 (F_ext _ _ _ _ E)), (proj2 (F_ext _ _ _ _ E)).
  rewrite (proj1 (F_scal n 0 _ k)), (proj2 (F_scal n 0 _ k)). ring.
Qed.

(** * Sums of the phases *)

Lemma cos_turn_1 : forall n d, (1 <= n)%Z -> cos (turn n d) = 1 -> (n | d)%Z.
Proof.
  intros n d Hn H. assert (IZR n <> 0) by (apply not_0_IZR; lia).
  set (x := PI * IZR d / IZR n). assert (E : turn n d = 2 * x) by (unfold turn, x; field; assumption).
  rewrite E, cos_2a_sin in H. assert (Z : sin x = 0) by nra.
  apply sin_eq_0_0 in Z. destruct Z as (q & Z). exists q. apply eq_IZR. rewrite mult_IZR.
  unfold x in Z. apply (Rmult_eq_reg_l PI); [|pose proof PI_RGT_0; lra].
  apply (Rmult_eq_compat_r (IZR n)) in Z. replace (PI * IZR d / IZR n * IZR n) with (PI * IZR d) in Z by (field; assumption).
  lra.
Qed.

Definition Ec (n d : Z) : R := sumR (map (fun a => cos (turn n (a * d))) (zrange 0 n)).
Definition Es (n d : Z) : R := sumR (map (fun a => sin (turn n (a * d))) (zrange 0 n)).

Lemma E_rotate : forall n d, (1 <= n)%Z ->
  Ec n d = cos (turn n d) * Ec n d - sin (turn n d) * Es n d
  /\ Es n d = sin (turn n d) * Ec n d + cos (turn n d) * Es n d.
Proof.
  intros n d Hn. set (c := cos (turn n d)). set (s := sin (turn n d)).
  assert (A : forall a, exists q, ((a + 1) mod n * d = (a * d + d) + q * n)%Z).
  { intro a. exists (- ((a + 1) / n) * d)%Z. rewrite Z.mod_eq by lia. ring. }
  split.
  - transitivity (sumR (map (fun a => cos (turn n (((a + 1) mod n) * d))) (zrange 0 n)));
      [symmetry; apply (sum_rotate n 1 (fun a => cos (turn n (a * d))) Hn)|].
    unfold Rminus. rewrite (Ropp_mult_distr_l s). unfold Ec, Es.
    rewrite <- !sumR_scal, <- sumR_plus. apply sumR_ext. intros a _.
    destruct (A a) as (q & E). rewrite (cos_turn_mod n _ _ q Hn E), turn_plus, cos_plus by exact Hn. fold c s. ring.
  - transitivity (sumR (map (fun a => sin (turn n (((a + 1) mod n) * d))) (zrange 0 n)));
      [symmetry; apply (sum_rotate n 1 (fun a => sin (turn n (a * d))) Hn)|].
    unfold Ec, Es. rewrite <- !sumR_scal, <- sumR_plus. apply sumR_ext. intros a _.
    destruct (A a) as (q & E). rewrite (sin_turn_mod n _ _ q Hn E), turn_plus, sin_plus by exact Hn. fold c s. ring.
Qed.

Lemma E_values : forall n d, (1 <= n)%Z ->
  Es n d = 0 /\ ((n | d)%Z -> Ec n d = IZR n) /\ (~ (n | d)%Z -> Ec n d = 0).
Proof.
  intros n d Hn. assert (D : (n | d)%Z -> Es n d = 0 /\ Ec n d = IZR n).
  { intros (q & ->). split; unfold Es, Ec.
    - apply sumR_zero. intros a _. rewrite (sin_turn_mod n _ 0 (a * q) Hn) by ring. unfold turn.
      replace (2 * PI * 0 / IZR n) with 0 by (unfold Rdiv; ring). apply sin_0.
    - rewrite (sumR_ext _ _ (fun _ => 1)).
      + rewrite sumR_const, INR_zrange by lia. ring.
      + intros a _. rewrite (cos_turn_mod n _ 0 (a * q) Hn) by ring. unfold turn.
        replace (2 * PI * 0 / IZR n) with 0 by (unfold Rdiv; ring). apply cos_0. }
  assert (U : ~ (n | d)%Z -> Es n d = 0 /\ Ec n d = 0).
  { intro H. assert (C : cos (turn n d) <> 1) by (intro C; apply H; apply cos_turn_1; assumption).
    destruct (E_rotate n d Hn) as [A B]. pose proof (sin2_cos2 (turn n d)) as T. unfold Rsqr in T.
    set (c := cos (turn n d)) in *. set (s := sin (turn n d)) in *. set (x := Ec n d) in *. set (y := Es n d) in *.
    assert (X : (2 - 2 * c) * x = 0) by nra. assert (Y : (2 - 2 * c) * y = 0) by nra.
    split; [apply Rmult_integral in Y; destruct Y|apply Rmult_integral in X; destruct X]; lra. }
  destruct (Znumtheory.Zdivide_dec n d) as [H|H].
  - destruct (D H). tauto.
  - destruct (U H). tauto.
Qed.

Lemma S3_axes : forall n (f g h : Z -> R), S3 n (fun c => match c with [i; j; k] => f i * g j * h k | _ => 0 end)
  = sumR (map f (zrange 0 n)) * sumR (map g (zrange 0 n)) * sumR (map h (zrange 0 n)).
Proof.
  intros n f g h. rewrite S3_total. unfold total3.
  rewrite Rmult_assoc, <- sumR_scal_r. apply sumR_ext. intros i _.
  rewrite <- sumR_scal_r, <- sumR_scal. apply sumR_ext. intros j _. rewrite <- sumR_scal, <- sumR_scal. apply sumR_ext. intros k _. ring.
Qed.

(** The phases of a mode add up to nothing unless the mode is the mean. *)
Lemma phases_sum : forall n x0 x1 x2, (1 <= n)%Z -> let x := [x0; x1; x2] in
  S3 n (fun k => cos (turn n (dot k x))) = Ec n x0 * Ec n x1 * Ec n x2
  /\ S3 n (fun k => sin (turn n (dot k x))) = 0.
Proof.
  intros n x0 x1 x2 Hn x.
  set (C := fun d a => cos (turn n (a * d))). set (Z := fun d a => sin (turn n (a * d))).
  pose (ccc := fun f g h : _ -> R => fun c : cell => match c with [i; j; k] => f i * g j * h k | _ => 0 end).
  destruct (E_values n x0 Hn) as (S0 & _). destruct (E_values n x1 Hn) as (S1 & _). destruct (E_values n x2 Hn) as (S2 & _).
  assert (Q : forall f g h, S3 n (ccc f g h) = sumR (map f (zrange 0 n)) * sumR (map g (zrange 0 n)) * sumR (map h (zrange 0 n)))
    by (intros; apply S3_axes).
  split.
  - rewrite (S3_ext n _ (fun k => ccc (C x0) (C x1) (C x2) k + (-1) * (ccc (Z x0) (Z x1) (C x2) k + (ccc (Z x0) (C x1) (Z x2) k + ccc (C x0) (Z x1) (Z x2) k)))).
    + rewrite S3_plus, S3_scal, S3_plus, S3_plus, !Q. unfold C, Z. fold (Ec n x0) (Ec n x1) (Ec n x2) (Es n x0) (Es n x1) (Es n x2).
      rewrite S0, S1. ring.
    + intros k (i & j & l & -> & _). cbn [dot x]. unfold ccc, C, Z. unfold x. cbn [dot]. rewrite Z.add_0_r, !turn_plus by exact Hn.
      rewrite cos_plus, cos_plus, sin_plus. ring.
  - rewrite (S3_ext n _ (fun k => (-1) * ccc (Z x0) (Z x1) (Z x2) k + (ccc (Z x0) (C x1) (C x2) k + (ccc (C x0) (Z x1) (C x2) k + ccc (C x0) (C x1) (Z x2) k)))).
    + rewrite S3_plus, S3_scal, S3_plus, S3_plus, !Q. unfold C, Z. fold (Ec n x0) (Ec n x1) (Ec n x2) (Es n x0) (Es n x1) (Es n x2).
      rewrite S0, S1, S2. ring.
    + intros k (i & j & l & -> & _). unfold ccc, C, Z. unfold x. cbn [dot]. rewrite Z.add_0_r, !turn_plus by exact Hn.
      rewrite sin_plus, cos_plus, sin_plus. ring.
Qed.

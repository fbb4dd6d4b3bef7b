(** C135: pictures are sums of the pictured quantity with weights that do not depend on it, so quotients of two pictures
    are averages (docs/source/visualisation/projection.rst, the projected temperature map). *)
From Coq Require Import List ZArith Reals Bool Lia Lra.
From Verif Require Import Base BaseLemmas VisModel VisSumProofs VisTheorems PowerModel RotModel HsmlModel FrontModel NearModel.
Import ListNotations.
Open Scope R_scope.

(** * Vocabulary *)

(** A particle with another value of the pictured quantity. *)
Definition with_mass (m : R) (p : part) : part := mkpart (p_x p) (p_y p) (p_z p) m (p_h p).

(** [draw q] is the outcome of drawing the quantity [q] of the rows [l].  Either it fails in the same way whatever the
    quantity is, or every pixel is the sum of the quantity of the rows with weights that do not depend on the quantity. *)
Definition sum_with {A} (q : A -> R) (l : list A) (ws : list R) : R := sumR (map (fun xw => q (fst xw) * snd xw) (combine l ws)).
Definition fails {A} (draw : (A -> R) -> res image) : Prop := exists e, forall q, draw q = Err e.
Definition weighs {A} (draw : (A -> R) -> res image) (l : list A) (ws : list (cell -> R)) : Prop :=
  length ws = length l /\
  forall q, exists img, draw q = Ok img /\ forall c, img c = sum_with q l (map (fun w => w c) ws).
Definition smooths {A} (draw : (A -> R) -> res image) (l : list A) : Prop := fails draw \/ exists ws, weighs draw l ws.
(** The same with weights that are not negative. *)
Definition averages {A} (draw : (A -> R) -> res image) (l : list A) : Prop :=
  fails draw \/ exists ws, weighs draw l ws /\ Forall (fun w => forall c, 0 <= w c) ws.

(** * What follows for any pictures *)

Lemma sum_with_lin {A} (q q' : A -> R) a b l ws :
  sum_with (fun x => a * q x + b * q' x) l ws = a * sum_with q l ws + b * sum_with q' l ws.
Proof.
  unfold sum_with. generalize (combine l ws). clear. intro l. induction l as [|x l IH]; cbn [map sumR fold_right]; [lra|].
  fold (sumR (map (fun xw => (a * q (fst xw) + b * q' (fst xw)) * snd xw) l)) (sumR (map (fun xw => q (fst xw) * snd xw) l))
    (sumR (map (fun xw => q' (fst xw) * snd xw) l)) in *. rewrite IH. ring.
Qed.

Lemma sum_with_le {A} (q q' : A -> R) l ws : Forall (fun w => 0 <= w) ws -> (forall x, In x l -> q x <= q' x) ->
  sum_with q l ws <= sum_with q' l ws.
Proof.
  intros W H. unfold sum_with.
  assert (G : Forall (fun xw => q (fst xw) <= q' (fst xw) /\ 0 <= snd xw) (combine l ws)).
  { apply Forall_forall. intros [x w] I. split; [apply H; eapply in_combine_l; exact I|].
    apply in_combine_r in I. exact (proj1 (Forall_forall _ _) W w I). }
  clear W H. revert G. generalize (combine l ws). clear. intros l G.
  induction G as [|[x w] l [G1 G2] G IH]; cbn [map sumR fold_right fst snd] in *; [lra|].
  fold (sumR (map (fun xw => q (fst xw) * snd xw) l)) (sumR (map (fun xw => q' (fst xw) * snd xw) l)) in *.
  assert (q x * w <= q' x * w) by (apply Rmult_le_compat_r; assumption). lra.
Qed.

(** The picture of a combination is the combination of the pictures. *)
Theorem C135_combination : forall (A : Type) (draw : (A -> R) -> res image) l q q' a b img img', smooths draw l ->
  draw q = Ok img -> draw q' = Ok img' ->
  exists sum, draw (fun x => a * q x + b * q' x) = Ok sum /\ forall c, sum c = a * img c + b * img' c.
Proof.
  intros A draw l q q' a b img img' S E E'. destruct S as [[e F]|[ws [L W]]]; [rewrite F in E; discriminate|].
  destruct (W q) as [i [Ei Vi]]. destruct (W q') as [j [Ej Vj]]. rewrite E in Ei. rewrite E' in Ej.
  injection Ei as <-. injection Ej as <-. destruct (W (fun x => a * q x + b * q' x)) as [s [Es Vs]].
  exists s. split; [exact Es|]. intro c. rewrite Vs, Vi, Vj. apply sum_with_lin.
Qed.

(** No failure depends on the quantity. *)
Theorem C135_failures : forall (A : Type) (draw : (A -> R) -> res image) l q q' e, smooths draw l -> draw q = Err e -> draw q' = Err e.
Proof.
  intros A draw l q q' e S E. destruct S as [[e' F]|[ws [L W]]].
  - rewrite F in E. rewrite F. exact E.
  - destruct (W q) as [i [Ei _]]. congruence.
Qed.

(** Pictures do not decrease with the quantity; in particular those of quantities that are not negative are not. *)
Theorem C135_order : forall (A : Type) (draw : (A -> R) -> res image) l q q' img img', averages draw l ->
  draw q = Ok img -> draw q' = Ok img' -> (forall x, In x l -> q x <= q' x) -> forall c, img c <= img' c.
Proof.
  intros A draw l q q' img img' S E E' H c. destruct S as [[e F]|[ws [[L W] P]]]; [rewrite F in E; discriminate|].
  destruct (W q) as [i [Ei Vi]]. destruct (W q') as [j [Ej Vj]]. rewrite E in Ei. rewrite E' in Ej.
  injection Ei as <-. injection Ej as <-. rewrite Vi, Vj. apply sum_with_le; [|exact H].
  apply Forall_map. eapply Forall_impl; [|exact P]. cbn beta. intros w Hw. apply Hw.
Qed.

(** The picture of [m * t] divided by that of [m]: where the latter is not zero the quotient is between any bounds of [t],
    so it is a weighted mean of [t]; it is [t] if that is constant. *)
Theorem C135_mean : forall (A : Type) (draw : (A -> R) -> res image) l m t lo hi img img', averages draw l ->
  (forall x, In x l -> 0 <= m x) -> (forall x, In x l -> lo <= t x <= hi) ->
  draw m = Ok img -> draw (fun x => m x * t x) = Ok img' ->
  forall c, img c <> 0 -> 0 < img c /\ lo <= img' c / img c <= hi.
Proof.
  intros A draw l m t lo hi img img' S Hm Ht E E' c N.
  assert (S' : smooths draw l) by (destruct S as [F|[ws [W _]]]; [left; exact F|right; exists ws; exact W]).
  destruct (C135_combination A draw l m m lo 0 img img S' E E) as [lower [El Vl]].
  destruct (C135_combination A draw l m m hi 0 img img S' E E) as [upper [Eu Vu]].
  destruct (C135_combination A draw l m m 0 0 img img S' E E) as [none [En Vn]].
  pose proof (C135_order A draw l _ _ none img S En E) as P0. pose proof (C135_order A draw l _ _ lower img' S El E') as P1.
  pose proof (C135_order A draw l _ _ img' upper S E' Eu) as P2.
  assert (Q0 : 0 <= img c). { specialize (P0 ltac:(intros x I; specialize (Hm x I); lra) c). rewrite Vn in P0. lra. }
  assert (Q1 : lo * img c <= img' c).
  { specialize (P1 ltac:(intros x I; specialize (Hm x I); specialize (Ht x I); nra) c). rewrite Vl in P1. lra. }
  assert (Q2 : img' c <= hi * img c).
  { specialize (P2 ltac:(intros x I; specialize (Hm x I); specialize (Ht x I); nra) c). rewrite Vu in P2. lra. }
  assert (P : 0 < img c) by lra. split; [exact P|]. assert (I : 0 < / img c) by (apply Rinv_0_lt_compat; exact P).
  assert (V : img c * / img c = 1) by (apply Rinv_r; lra). unfold Rdiv. split.
  - apply Rle_trans with (lo * img c * / img c); [rewrite Rmult_assoc, V; lra|]. apply Rmult_le_compat_r; lra.
  - apply Rle_trans with (hi * img c * / img c); [|rewrite Rmult_assoc, V; lra]. apply Rmult_le_compat_r; lra.
Qed.

(** * The backends *)

Definition scaled (m : R) (ws : list write) : list write := map (fun w => (fst w, m * snd w)) ws.
Definition positive (ws : list write) : Prop := Forall (fun w => 0 <= snd w) ws.
Definition linear (f : part -> list write) : Prop := forall m p, f (with_mass m p) = scaled m (f (with_mass 1 p)).

Lemma scaled_flat {A} m (F G : A -> list write) l : (forall a, F a = scaled m (G a)) -> flat_map F l = scaled m (flat_map G l).
Proof.
  intro H. induction l as [|a l IH]; [reflexivity|]. cbn [flat_map]. rewrite H, IH. unfold scaled. rewrite map_app. reflexivity.
Qed.
Lemma scaled_map {A} m (F G : A -> write) l : (forall a, F a = (fst (G a), m * snd (G a))) -> map F l = scaled m (map G l).
Proof. intro H. unfold scaled. rewrite map_map. apply map_ext. exact H. Qed.
Lemma scaled_spread2 m wx wy f g : (forall i j, f i j = m * g i j) -> spread2 wx wy f = scaled m (spread2 wx wy g).
Proof. intro H. apply scaled_flat. intro i. apply scaled_map. intro j. cbn [fst snd]. rewrite H. reflexivity. Qed.
Lemma scaled_spread3 m wx wy wz f g : (forall i j k, f i j k = m * g i j k) -> spread3 wx wy wz f = scaled m (spread3 wx wy wz g).
Proof.
  intro H. apply scaled_flat. intro i. apply scaled_flat. intro j. apply scaled_map. intro k. cbn [fst snd]. rewrite H. reflexivity.
Qed.
Lemma scaled_one m c v v' : v = m * v' -> [(c, v)] = scaled m [(c, v')].
Proof. intros ->. reflexivity. Qed.
Lemma positive_flat {A} (F : A -> list write) l : (forall a, positive (F a)) -> positive (flat_map F l).
Proof.
  intro H. unfold positive. apply Forall_forall. intros w I. apply in_flat_map in I as (a & _ & I).
  exact (proj1 (Forall_forall _ _) (H a) w I).
Qed.
Lemma positive_map {A} (F : A -> write) l : (forall a, 0 <= snd (F a)) -> positive (map F l).
Proof. intro H. unfold positive. apply Forall_map. apply Forall_forall. intros a _. apply H. Qed.
Lemma positive_spread2 wx wy f : (forall i j, 0 <= f i j) -> positive (spread2 wx wy f).
Proof. intro H. apply positive_flat. intro i. apply positive_map. intro j. apply H. Qed.
Lemma positive_spread3 wx wy wz f : (forall i j k, 0 <= f i j k) -> positive (spread3 wx wy wz f).
Proof. intro H. apply positive_flat. intro i. apply positive_flat. intro j. apply positive_map. intro k. apply H. Qed.

(** Signs. *)
Lemma inv_nonneg x : 0 <= x -> 0 <= / x.
Proof. intro H. destruct (Req_dec x 0) as [->|N]; [rewrite Rinv_0; lra|]. apply Rlt_le, Rinv_0_lt_compat. lra. Qed.
Lemma div_nonneg x y : 0 <= x -> 0 <= y -> 0 <= x / y.
Proof. intros. apply Rmult_le_pos; [assumption|apply inv_nonneg; assumption]. Qed.
Lemma kernel2_nonneg r H : 0 <= kernel2 r H.
Proof.
  unfold kernel2. cbv zeta. destruct (Rlt_dec _ 1); [|lra]. apply Rmult_le_pos; [apply Rmax_r|].
  rewrite Rmult_assoc. apply Rmult_le_pos; [unfold constant2; lra|apply Rle_0_sqr].
Qed.
Lemma kernel3_nonneg r H : 0 <= H -> 0 <= kernel3 r H.
Proof.
  intro P. unfold kernel3. cbv zeta. destruct (Rlt_dec _ 1); [|lra]. apply Rmult_le_pos; [apply Rmax_r|].
  apply Rmult_le_pos; [|apply div_nonneg; lra]. rewrite Rmult_assoc. apply Rmult_le_pos; [unfold constant3; lra|apply Rle_0_sqr].
Qed.
Lemma sums_nonneg l : Forall (fun x => 0 <= x) l -> 0 <= sumR l.
Proof. intro H. induction H as [|x l Hx H IH]; cbn [sumR fold_right] in *; [lra|]. fold (sumR l). lra. Qed.
Lemma sum_grid_nonneg {A B} (la : list A) (lb : list B) f : (forall a b, 0 <= f a b) -> 0 <= sumR (flat_map (fun a => map (f a) lb) la).
Proof.
  intro H. apply sums_nonneg. apply Forall_forall. intros x I. apply in_flat_map in I as (a & _ & I).
  apply in_map_iff in I as (b & <- & _). apply H.
Qed.
Lemma square_nonneg n : 0 <= IZR n * IZR n. Proof. apply Rle_0_sqr. Qed.

Lemma scaled_copies2 m bx by_ f g p q : p_x p = p_x q -> p_y p = p_y q -> (forall x y, f x y = scaled m (g x y)) ->
  copies2 bx by_ f p = scaled m (copies2 bx by_ g q).
Proof.
  intros E1 E2 H. unfold copies2. rewrite E1, E2. apply scaled_flat. intro sx. apply scaled_flat. intro sy. apply H.
Qed.
Lemma scaled_copies3 m sh bx by_ bz f g p q : p_x p = p_x q -> p_y p = p_y q -> p_z p = p_z q ->
  (forall x y z, f x y z = scaled m (g x y z)) -> copies3 sh bx by_ bz f p = scaled m (copies3 sh bx by_ bz g q).
Proof.
  intros E1 E2 E3 H. unfold copies3. rewrite E1, E2, E3. apply scaled_flat. intro sx. apply scaled_flat. intro sy.
  apply scaled_flat. intro sz. apply H.
Qed.
Lemma positive_copies2 bx by_ f p : (forall x y, positive (f x y)) -> positive (copies2 bx by_ f p).
Proof. intro H. unfold copies2. apply positive_flat. intro sx. apply positive_flat. intro sy. apply H. Qed.
Lemma positive_copies3 sh bx by_ bz f p : (forall x y z, positive (f x y z)) -> positive (copies3 sh bx by_ bz f p).
Proof. intro H. unfold copies3. apply positive_flat. intro sx. apply positive_flat. intro sy. apply positive_flat. intro sz. apply H. Qed.

Ltac none := constructor.
Ltac one := constructor; [cbn [snd]|constructor].

Lemma fast_linear n bx by_ : linear (fast_part n bx by_).
Proof.
  intros m p. apply scaled_copies2; try reflexivity. intros x y. cbn [with_mass p_m p_h]. unfold fast_at. cbv zeta.
  destruct (misses _ _ _ || misses _ _ _); [reflexivity|]. destruct (_ <=? 1)%Z.
  - destruct (inside _ _ && inside _ _); [apply scaled_one; ring|reflexivity].
  - apply scaled_spread2. intros i j. ring.
Qed.
Lemma fast_positive n bx by_ p : positive (fast_part n bx by_ (with_mass 1 p)).
Proof.
  apply positive_copies2. intros x y. cbn [with_mass p_m p_h]. unfold fast_at. cbv zeta.
  destruct (misses _ _ _ || misses _ _ _); [none|]. destruct (_ <=? 1)%Z.
  - destruct (inside _ _ && inside _ _); [one|none]. rewrite Rmult_1_l. apply square_nonneg.
  - apply positive_spread2. intros i j. rewrite Rmult_1_l. apply kernel2_nonneg.
Qed.
Lemma histogram_linear n bx by_ : linear (histogram_part n bx by_).
Proof.
  intros m p. apply scaled_copies2; try reflexivity. intros x y. cbn [with_mass p_m p_h]. unfold histogram_at. cbv zeta.
  destruct (negb _); [apply scaled_one; ring|reflexivity].
Qed.
Lemma histogram_positive n bx by_ p : positive (histogram_part n bx by_ (with_mass 1 p)).
Proof.
  apply positive_copies2. intros x y. cbn [with_mass p_m p_h]. unfold histogram_at. cbv zeta.
  destruct (negb _); [one|none]. rewrite Rmult_1_l. apply square_nonneg.
Qed.
Lemma normalisation_nonneg n cx cy s w x y : 0 <= normalisation n cx cy s w x y.
Proof. apply sum_grid_nonneg. intros i j. apply kernel2_nonneg. Qed.
Lemma renormalised_linear n bx by_ : linear (renormalised_part n bx by_).
Proof.
  intros m p. apply scaled_copies2; try reflexivity. intros x y. cbn [with_mass p_m p_h]. unfold renormalised_at. cbv zeta.
  destruct (misses _ _ _ || misses _ _ _); [reflexivity|]. destruct (_ <=? 1)%Z.
  - destruct (inside _ _ && inside _ _); [apply scaled_one; ring|reflexivity].
  - apply scaled_spread2. intros i j. ring.
Qed.
Lemma renormalised_positive n bx by_ p : positive (renormalised_part n bx by_ (with_mass 1 p)).
Proof.
  apply positive_copies2. intros x y. cbn [with_mass p_m p_h]. unfold renormalised_at. cbv zeta.
  destruct (misses _ _ _ || misses _ _ _); [none|]. destruct (_ <=? 1)%Z.
  - destruct (inside _ _ && inside _ _); [one|none]. rewrite Rmult_1_l. apply square_nonneg.
  - apply positive_spread2. intros i j. rewrite Rmult_1_l. apply Rmult_le_pos; [|apply kernel2_nonneg].
    apply div_nonneg; [apply square_nonneg|apply normalisation_nonneg].
Qed.
Lemma reference_loop_linear n m h x y0 by_ sh : reference_loop n m h x y0 by_ sh = scaled m (reference_loop n 1 h x y0 by_ sh).
Proof.
  induction sh as [|sy sh IH]; [reflexivity|]. cbn [reference_loop]. cbv zeta.
  destruct (misses _ _ _ || misses _ _ _); [exact IH|]. destruct (_ <=? 2)%Z; [reflexivity|].
  rewrite IH. unfold scaled at 2. rewrite map_app. f_equal. apply (scaled_spread2 m). intros i j. ring.
Qed.
Lemma reference_loop_positive n h x y0 by_ sh : positive (reference_loop n 1 h x y0 by_ sh).
Proof.
  induction sh as [|sy sh IH]; [none|]. cbn [reference_loop]. cbv zeta.
  destruct (misses _ _ _ || misses _ _ _); [exact IH|]. destruct (_ <=? 2)%Z; [none|].
  apply Forall_app. split; [|exact IH]. apply positive_spread2. intros i j. rewrite Rmult_1_l. apply kernel2_nonneg.
Qed.
Lemma reference_linear n bx by_ : linear (reference_part n bx by_).
Proof. intros m p. apply scaled_flat. intro sx. cbn [with_mass p_m p_h p_x p_y]. apply reference_loop_linear. Qed.
Lemma reference_positive n bx by_ p : positive (reference_part n bx by_ (with_mass 1 p)).
Proof. apply positive_flat. intro sx. cbn [with_mass p_m p_h p_x p_y]. apply reference_loop_positive. Qed.
Lemma subsampled_linear e d n bx by_ : linear (subsampled_part e d n bx by_).
Proof.
  intros m p. apply scaled_copies2; try reflexivity. intros x y. cbn [with_mass p_m p_h]. unfold subsampled_at. cbv zeta.
  destruct (misses _ _ _ || misses _ _ _); [reflexivity|]. destruct (Rle_dec _ _).
  - destruct (negb _ && _); [apply scaled_one; ring|]. apply scaled_flat. intro a. apply scaled_flat. intro b.
    destruct (inside _ _ && inside _ _); [apply scaled_one; ring|reflexivity].
  - apply scaled_spread2. intros i j. ring.
Qed.
Lemma subsampled_positive e d n bx by_ p : positive (subsampled_part e d n bx by_ (with_mass 1 p)).
Proof.
  apply positive_copies2. intros x y. cbn [with_mass p_m p_h]. unfold subsampled_at. cbv zeta.
  destruct (misses _ _ _ || misses _ _ _); [none|]. destruct (Rle_dec _ _).
  - destruct (negb _ && _); [one; rewrite Rmult_1_l; apply square_nonneg|]. apply positive_flat. intro a. apply positive_flat. intro b.
    destruct (inside _ _ && inside _ _); [one|none]. rewrite Rmult_1_l. unfold dithered.
    apply Rmult_le_pos; [apply kernel2_nonneg|]. apply div_nonneg; [apply square_nonneg|].
    apply sum_grid_nonneg. intros i j. apply kernel2_nonneg.
  - apply positive_spread2. intros i j. rewrite Rmult_1_l. apply Rmult_le_pos; [|apply Rle_0_sqr].
    apply sum_grid_nonneg. intros a b. apply kernel2_nonneg.
Qed.
Lemma slice_linear n zs bx by_ bz : linear (slice_part n zs bx by_ bz).
Proof.
  intros m p. apply scaled_copies3; try reflexivity. intros x y z. cbn [with_mass p_m p_h]. unfold slice_at. cbv zeta.
  destruct (_ || misses _ _ _ || misses _ _ _); [reflexivity|]. apply scaled_spread2. intros i j. ring.
Qed.
Lemma slice_positive n zs bx by_ bz p : 0 <= p_h p -> positive (slice_part n zs bx by_ bz (with_mass 1 p)).
Proof.
  intro P. apply positive_copies3. intros x y z. cbn [with_mass p_m p_h]. unfold slice_at. cbv zeta.
  destruct (_ || misses _ _ _ || misses _ _ _); [none|]. apply positive_spread2. intros i j. rewrite Rmult_1_l.
  apply kernel3_nonneg. apply Rmult_le_pos; [unfold gamma3; lra|exact P].
Qed.
Lemma voxel_linear nz n m h x y z : voxel_at nz n m h x y z = scaled m (voxel_at nz n 1 h x y z).
Proof.
  unfold voxel_at. cbv zeta. destruct (misses _ _ _ || misses _ _ _ || misses _ _ _); [reflexivity|].
  destruct ((if Rlt_dec _ _ then true else false) || _).
  - destruct (inside _ _ && inside _ _ && inside _ _); [apply scaled_one; ring|reflexivity].
  - apply scaled_spread3. intros i j k. ring.
Qed.
Lemma voxel_positive nz n h x y z : 0 <= IZR nz -> 0 <= h -> positive (voxel_at nz n 1 h x y z).
Proof.
  intros Nz P. unfold voxel_at. cbv zeta. destruct (misses _ _ _ || misses _ _ _ || misses _ _ _); [none|].
  destruct ((if Rlt_dec _ _ then true else false) || _).
  - destruct (inside _ _ && inside _ _ && inside _ _); [one|none]. rewrite Rmult_1_l. apply Rmult_le_pos; [apply square_nonneg|exact Nz].
  - apply positive_spread3. intros i j k. rewrite Rmult_1_l. apply kernel3_nonneg. apply Rmult_le_pos; [unfold gamma3; lra|exact P].
Qed.
Lemma volume_linear n bx by_ bz : linear (volume_part n bx by_ bz).
Proof. intros m p. apply scaled_copies3; try reflexivity. intros x y z. cbn [with_mass p_m p_h]. apply voxel_linear. Qed.
Lemma limited_linear n ratio bx by_ bz : linear (limited_part n ratio bx by_ bz).
Proof. intros m p. apply scaled_copies3; try reflexivity. intros x y z. cbn [with_mass p_m p_h]. apply voxel_linear. Qed.
Lemma deposit_linear n fold bx by_ bz : linear (deposit_part n fold bx by_ bz).
Proof. intros m p. unfold deposit_part. cbv zeta. cbn [with_mass p_x p_y p_z p_m]. apply scaled_one. ring. Qed.

(** The rows [l], with positions and smoothing lengths [pos], drawn with the quantity [q]. *)
Definition rows {A} (pos : A -> part) (q : A -> R) (l : list A) : list part := map (fun x => with_mass (q x) (pos x)) l.
Definition drawn {A} (backend : list part -> res image) (pos : A -> part) (l : list A) (q : A -> R) : res image :=
  backend (rows pos q l).
Definition smoothing (backend : list part -> res image) : Prop := forall A (pos : A -> part) l, smooths (drawn backend pos l) l.
Definition averaging (backend : list part -> res image) : Prop :=
  forall A (pos : A -> part) l, (forall x, In x l -> 0 <= p_h (pos x)) -> averages (drawn backend pos l) l.

Lemma value_scaled c m ws : value_at c (scaled m ws) = m * value_at c ws.
Proof.
  unfold value_at, scaled. rewrite map_map. rewrite <- sumR_scal. f_equal. apply map_ext. intros [d v]. cbn [fst snd].
  destruct (cell_eqb d c); ring.
Qed.
Lemma ok_scaled s m ws : ok_writes s (scaled m ws) <-> ok_writes s ws.
Proof. unfold ok_writes, scaled. rewrite Forall_map. cbn [fst]. reflexivity. Qed.
Lemma ok_rows {A} s f (pos : A -> part) q l : linear f ->
  (ok_writes s (flat_map f (rows pos q l)) <-> ok_writes s (flat_map f (rows pos (fun _ => 1) l))).
Proof.
  intro H. induction l as [|x l IH]; [reflexivity|]. cbn [rows map flat_map]. unfold ok_writes in *.
  rewrite !Forall_app. unfold rows in IH. rewrite IH. rewrite (H (q x)).
  pose proof (ok_scaled s (q x) (f (with_mass 1 (pos x)))) as K. unfold ok_writes in K. rewrite K. reflexivity.
Qed.
Lemma sum_rows {A} c f (pos : A -> part) q l : linear f ->
  value_at c (flat_map f (rows pos q l)) =
  sum_with q l (map (fun w => w c) (map (fun x c => value_at c (f (with_mass 1 (pos x)))) l)).
Proof.
  intro H. unfold sum_with. induction l as [|x l IH]; [reflexivity|]. cbn [rows map flat_map combine fst snd].
  rewrite value_at_app, sumR_cons, (H (q x)), value_scaled. unfold rows in IH. rewrite IH. reflexivity.
Qed.
Lemma perform_err s ws : ok_writes s ws \/ forall z, perform s ws z = Err UndefinedRead.
Proof.
  induction ws as [|[c v] t IH]; [left; constructor|]. destruct (in_bounds s c) eqn:E.
  - destruct IH as [O|F]; [left; constructor; assumption|right]. intro z. cbn [perform]. rewrite E. apply F.
  - right. intro z. cbn [perform]. rewrite E. reflexivity.
Qed.

Lemma render_weighs {A} s f (pos : A -> part) l : linear f ->
  fails (drawn (fun ps => render s (flat_map f ps)) pos l) \/
  weighs (drawn (fun ps => render s (flat_map f ps)) pos l) l (map (fun x c => value_at c (f (with_mass 1 (pos x)))) l).
Proof.
  intro H. destruct (perform_err s (flat_map f (rows pos (fun _ => 1) l))) as [O|F].
  - right. split; [apply map_length|]. intro q. apply (ok_rows s f pos q l H) in O.
    destruct (render_spec s _ O) as [img [E V]]. exists img. split; [exact E|]. intro c. rewrite V. apply sum_rows. exact H.
  - left. exists UndefinedRead. intro q. unfold drawn, render.
    destruct (perform_err s (flat_map f (rows pos q l))) as [O|F']; [|apply F'].
    apply (ok_rows s f pos q l H) in O. destruct (render_spec s _ O) as [img [E V]]. unfold render in E. rewrite F in E. discriminate.
Qed.
Lemma render_smooths s f : linear f -> smoothing (fun ps => render s (flat_map f ps)).
Proof. intros H A pos l. destruct (render_weighs s f pos l H) as [F|W]; [left; exact F|right; eexists; exact W]. Qed.
Lemma value_positive c ws : positive ws -> 0 <= value_at c ws.
Proof.
  intro H. unfold value_at. apply sums_nonneg. apply Forall_map. eapply Forall_impl; [|exact H]. intros [d v] P. cbn [fst snd] in *.
  destruct (cell_eqb d c); lra.
Qed.
Lemma render_averages s f : linear f -> (forall p, 0 <= p_h p -> positive (f (with_mass 1 p))) ->
  averaging (fun ps => render s (flat_map f ps)).
Proof.
  intros H P A pos l B. destruct (render_weighs s f pos l H) as [F|W]; [left; exact F|right; eexists; split; [exact W|]].
  apply Forall_map. apply Forall_forall. intros x I c. apply value_positive. apply P. apply B. exact I.
Qed.

(** Every backend draws sums with weights that do not depend on the quantity: those of projection_backends, the slice
    (also with particles whose smoothing length is negative), the volume and the deposition. *)
Theorem C135_backends_linear : forall n bx by_ bz xres yres zs ratio evals dither fold,
  smoothing (fast n bx by_) /\ smoothing (histogram n bx by_) /\ smoothing (renormalised n bx by_) /\ smoothing (reference n bx by_) /\
  smoothing (subsampled evals dither n bx by_) /\ smoothing (slice_scatter xres yres zs bx by_ bz) /\
  smoothing (volume n bx by_ bz) /\ smoothing (limited_z n ratio bx by_ bz) /\ smoothing (deposit n fold bx by_ bz).
Proof.
  intros. repeat match goal with |- _ /\ _ => split end; apply render_smooths.
  - apply fast_linear. - apply histogram_linear. - apply renormalised_linear. - apply reference_linear. - apply subsampled_linear.
  - apply slice_linear. - apply volume_linear. - apply limited_linear. - apply deposit_linear.
Qed.

(** The weights are not negative. *)
Theorem C135_backends_average : forall n bx by_ bz xres yres zs ratio evals dither fold, (0 <= n)%Z -> 0 <= fold -> (1 <= ratio)%Z ->
  averaging (fast n bx by_) /\ averaging (histogram n bx by_) /\ averaging (renormalised n bx by_) /\ averaging (reference n bx by_) /\
  averaging (subsampled evals dither n bx by_) /\ averaging (slice_scatter xres yres zs bx by_ bz) /\
  averaging (volume n bx by_ bz) /\ averaging (limited_z n ratio bx by_ bz) /\ averaging (deposit n fold bx by_ bz).
Proof.
  intros n bx by_ bz xres yres zs ratio evals dither fold Hn Hf Hr. assert (Rn : 0 <= IZR n) by (apply (Rle_trans _ (IZR 0)); [lra|apply IZR_le; exact Hn]).
  repeat match goal with |- _ /\ _ => split end; apply render_averages.
  - apply fast_linear. - intros p _. apply fast_positive.
  - apply histogram_linear. - intros p _. apply histogram_positive.
  - apply renormalised_linear. - intros p _. apply renormalised_positive.
  - apply reference_linear. - intros p _. apply reference_positive.
  - apply subsampled_linear. - intros p _. apply subsampled_positive.
  - apply slice_linear. - intros p P. apply slice_positive. exact P.
  - apply volume_linear.
  - intros p P. apply positive_copies3. intros x y z. cbn [with_mass p_m p_h]. apply voxel_positive; assumption.
  - apply limited_linear.
  - intros p P. apply positive_copies3. intros x y z. cbn [with_mass p_m p_h]. apply voxel_positive; [|exact P].
    apply (Rle_trans _ (IZR 0)); [lra|]. apply IZR_le. apply Z.div_pos; lia.
  - apply deposit_linear.
  - intros p _. unfold deposit_part. cbv zeta. cbn [with_mass p_m]. one. rewrite Rmult_1_l.
    apply Rmult_le_pos; [apply Rmult_le_pos; [apply square_nonneg|exact Rn]|]. apply Rmult_le_pos; [apply Rle_0_sqr|exact Hf].
Qed.

(** The quotient of two pictures made by several threads or on a GPU, which agree with the serial ones on the pixels (C36). *)
Theorem C135_mean_parallel : forall (A : Type) (draw draw' : (A -> R) -> res image) s l m t lo hi img img', averages draw l ->
  (forall q, agree s (draw q) (draw' q)) -> (forall x, In x l -> 0 <= m x) -> (forall x, In x l -> lo <= t x <= hi) ->
  draw' m = Ok img -> draw' (fun x => m x * t x) = Ok img' ->
  forall c, in_bounds s c = true -> img c <> 0 -> 0 < img c /\ lo <= img' c / img c <= hi.
Proof.
  intros A draw draw' s l m t lo hi img img' S G Hm Ht E E' c B N.
  destruct (G m) as [a [b [E1 [E2 V]]]]. rewrite E in E2. injection E2 as <-.
  destruct (G (fun x => m x * t x)) as [a' [b' [E1' [E2' V']]]]. rewrite E' in E2'. injection E2' as <-.
  specialize (V c B). specialize (V' c B). rewrite <- V in *. rewrite <- V'.
  exact (C135_mean A draw l m t lo hi a a' S Hm Ht E1 E1' c N).
Qed.

(** * The functions that make pictures of a dataset *)

Definition values (r : res (picture * list part)) : res image := match r with Ok pl => Ok (pic_image (fst pl)) | Err e => Err e end.

Lemma pick_map {A B} (h : A -> B) mask l : pick mask (map h l) = match pick mask l with Ok l' => Ok (map h l') | Err e => Err e end.
Proof.
  destruct mask as [bs|]; cbn [pick]; [|reflexivity]. unfold zlen. rewrite map_length.
  destruct (_ =? _)%Z; [|reflexivity]. f_equal. revert l. induction bs as [|b bs IH]; intro l; [reflexivity|].
  destruct l as [|x l]; [reflexivity|]. cbn [map combine filter fst]. destruct b; cbn [map snd]; rewrite IH; reflexivity.
Qed.

(** Rows that are not picked weigh nothing. *)
Lemma unpicked {A} bs : forall (l : list A) (ws : list (cell -> R)), length bs = length l ->
  length ws = length (map snd (filter fst (combine bs l))) ->
  exists vs, length vs = length l /\ (Forall (fun w => forall c, 0 <= w c) ws -> Forall (fun w => forall c, 0 <= w c) vs) /\
    forall q c, sum_with q l (map (fun w => w c) vs) = sum_with q (map snd (filter fst (combine bs l))) (map (fun w => w c) ws).
Proof.
  induction bs as [|b bs IH]; intros [|x l] ws L L'; try discriminate L.
  - exists []. split; [reflexivity|split; [constructor|]]. intros q c. destruct ws; [reflexivity|discriminate L'].
  - injection L as L. cbn [combine filter fst] in *. destruct b; cbn [map snd] in *.
    + destruct ws as [|w ws]; [discriminate L'|]. injection L' as L'. destruct (IH l ws L L') as [vs [V1 [V2 V3]]].
      exists (w :: vs). split; [cbn; f_equal; exact V1|split].
      * intro F. inversion F; subst. constructor; [assumption|apply V2; assumption].
      * intros q c. unfold sum_with in *. cbn [map combine fst snd]. rewrite !sumR_cons, V3. reflexivity.
    + destruct (IH l ws L L') as [vs [V1 [V2 V3]]]. exists ((fun _ => 0) :: vs). split; [cbn; f_equal; exact V1|split].
      * intro F. constructor; [intro c; lra|apply V2; exact F].
      * intros q c. unfold sum_with in *. cbn [map combine fst snd]. rewrite !sumR_cons, V3. ring.
Qed.

Lemma weighs_picked {A} mask (l l' : list A) draw ws : pick mask l = Ok l' -> weighs draw l' ws ->
  exists vs, weighs draw l vs /\ (Forall (fun w => forall c, 0 <= w c) ws -> Forall (fun w => forall c, 0 <= w c) vs).
Proof.
  destruct mask as [bs|]; cbn [pick]; [|intros [= <-] W; exists ws; auto]. destruct (zlen bs =? zlen l)%Z eqn:E; [|discriminate].
  apply Z.eqb_eq in E. unfold zlen in E. intros [= <-] [L W]. destruct (unpicked bs l ws ltac:(lia) L) as [vs [V1 [V2 V3]]].
  exists vs. split; [split; [exact V1|]|exact V2]. intro q. destruct (W q) as [img [E' V]]. exists img. split; [exact E'|].
  intro c. rewrite V3. apply V.
Qed.

(** Dividing by a number. *)
Lemma weighs_divided {A} (draw : (A -> R) -> res image) l ws k : weighs draw l ws ->
  weighs (fun q => match draw q with Ok img => Ok (fun c => img c / k) | Err e => Err e end) l (map (fun w c => w c / k) ws).
Proof.
  intros [L W]. split; [rewrite map_length; exact L|]. intro q. destruct (W q) as [img [E V]]. rewrite E.
  eexists. split; [reflexivity|]. intro c. cbn beta. rewrite V. rewrite map_map. unfold sum_with. clear. revert l.
  induction ws as [|w ws IH]; intros [|x l]; cbn [map combine fst snd]; rewrite ?sumR_nil, ?sumR_cons; try (unfold Rdiv; ring).
  rewrite <- IH. unfold Rdiv. ring.
Qed.

(** What the three functions have in common. *)
Lemma weighs_ext {A} (draw draw' : (A -> R) -> res image) l ws : (forall q, draw q = draw' q) -> weighs draw l ws -> weighs draw' l ws.
Proof. intros H [L W]. split; [exact L|]. intro q. rewrite <- H. apply W. Qed.

Lemma common {A} (pos : A -> part) l mask l' backend k (place : part -> part) draw :
  (forall m p, place (with_mass m p) = with_mass m (place p)) -> pick mask l = Ok l' ->
  (forall q, draw q = match backend (map place (rows pos q l')) with Ok img => Ok (fun c => img c / k) | Err e => Err e end) ->
  (smoothing backend -> smooths draw l) /\
  (averaging backend -> 0 <= k -> (forall p, 0 <= p_h p -> 0 <= p_h (place p)) -> (forall x, In x l -> 0 <= p_h (pos x)) -> averages draw l).
Proof.
  intros Hp Hm Hd.
  assert (R : forall q, map place (rows pos q l') = rows (fun x => place (pos x)) q l').
  { intro q. unfold rows. rewrite map_map. apply map_ext. intro x. apply Hp. }
  assert (In' : forall x, In x l' -> In x l).
  { intros x I. destruct mask as [bs|]; cbn [pick] in Hm; [|injection Hm as <-; exact I]. destruct (_ =? _)%Z; [|discriminate].
    injection Hm as <-. apply in_map_iff in I as ([b y] & <- & I). apply filter_In in I as [I _]. eapply in_combine_r. exact I. }
  assert (D : forall q, match drawn backend (fun x => place (pos x)) l' q with Ok img => Ok (fun c => img c / k) | Err e => Err e end = draw q).
  { intro q. rewrite Hd, R. reflexivity. }
  split.
  - intro S. destruct (S A (fun x => place (pos x)) l') as [[e F]|[ws W]].
    + left. exists e. intro q. rewrite <- D, F. reflexivity.
    + right. apply (weighs_divided _ _ _ k) in W. apply (weighs_ext _ _ _ _ D) in W.
      destruct (weighs_picked mask l l' draw _ Hm W) as [vs [V _]]. exists vs. exact V.
  - intros S K Hh Hpos. destruct (S A (fun x => place (pos x)) l') as [[e F]|[ws [W P]]].
    { intros x I. apply Hh, Hpos, In', I. }
    + left. exists e. intro q. rewrite <- D, F. reflexivity.
    + right. apply (weighs_divided _ _ _ k) in W. apply (weighs_ext _ _ _ _ D) in W.
      destruct (weighs_picked mask l l' draw _ Hm W) as [vs [V PV]]. exists vs. split; [exact V|]. apply PV.
      apply Forall_map. eapply Forall_impl; [|exact P]. intros w Hw c. apply div_nonneg; [apply Hw|exact K].
Qed.

Lemma placed_place periodic box rotation :
  (exists e, forall ps, placed periodic box rotation ps = Err e) \/
  exists place, (forall m p, place (with_mass m p) = with_mass m (place p)) /\ (forall p, p_h (place p) = p_h p) /\
    forall ps, exists stored, placed periodic box rotation ps = Ok (map place ps, stored).
Proof.
  destruct rotation as [[M c]|]; destruct periodic.
  - left. exists ValueError. reflexivity.
  - right. exists (fun p => moved p (rotate M c (position p))). split; [|split].
    + intros m p. unfold moved, position, with_mass. cbn [p_x p_y p_z p_m p_h]. destruct (rotate _ _ _) as [[x y] z]. reflexivity.
    + intro p. unfold moved. destruct (rotate _ _ _) as [[x y] z]. reflexivity.
    + intro ps. exists ps. reflexivity.
  - right. exists (fun p => moved p (rem_point box (position p))). split; [|split].
    + intros m p. unfold moved, position, with_mass. cbn [p_x p_y p_z p_m p_h]. destruct (rem_point _ _) as [[x y] z]. reflexivity.
    + intro p. unfold moved. destruct (rem_point _ _) as [[x y] z]. reflexivity.
    + intro ps. eexists. reflexivity.
  - right. exists (fun p => p). split; [reflexivity|split; [reflexivity|]]. intro ps. exists ps. cbn [placed]. rewrite map_id. reflexivity.
Qed.

Lemma depth_rows {A} periodic box i mask (pos : A -> part) q q' l place : (forall m p, place (with_mass m p) = with_mass m (place p)) ->
  depth_mask periodic box i mask (map place (rows pos q l)) = depth_mask periodic box i mask (map place (rows pos q' l)).
Proof.
  intro H. unfold depth_mask. destruct box as [[lx ly] lz]. destruct (i_has_z i); [|reflexivity].
  assert (E : forall q, map (fun p => in_depth periodic lz (i_zmin i) (i_zmax i) (p_z p)) (map place (rows pos q l)) =
    map (fun x => in_depth periodic lz (i_zmin i) (i_zmax i) (p_z (place (pos x)))) l).
  { intro k. unfold rows. rewrite !map_map. apply map_ext. intro x. rewrite H. reflexivity. }
  rewrite !E. reflexivity.
Qed.

(** The region is not inside out. *)
Definition ordered (box : vec) (r : option region) : Prop :=
  let '(lx, ly, lz) := box in
  match r with
  | None => 0 <= lx /\ 0 <= ly /\ 0 <= lz
  | Some r => r_xmin r <= r_xmax r /\ r_ymin r <= r_ymax r /\ match r_z r with Some (z0, z1) => z0 <= z1 | None => 0 <= lz end
  end.
Lemma ordered_info cubic periodic box r i : ordered box r -> region_info cubic periodic box r = Ok i ->
  0 <= i_xrange i /\ 0 <= i_yrange i /\ 0 <= i_zrange i /\ 0 <= i_max i.
Proof.
  unfold ordered, region_info. destruct box as [[lx ly] lz]. destruct r as [r|]; [destruct (r_z r) as [[z0 z1]|]|]; cbv zeta;
    intros [O1 [O2 O3]]; (destruct (cubic && _); [discriminate|]); intros [= <-]; cbn [i_xrange i_yrange i_zrange i_max];
    (split; [lra|split; [lra|split; [lra|]]]); eapply Rle_trans; [|apply Rmax_l| |apply Rmax_l| |apply Rmax_l]; lra.
Qed.

Definition factor (a : R) (d : nat) (coords : bool) (frame : option bool) (norm : R) : R :=
  match frame with Some f => convert a d coords f norm | None => 1 end.
Lemma factor_nonneg a d coords frame norm : 0 <= a -> 0 <= norm -> 0 <= factor a d coords frame norm.
Proof.
  intros Ha Hn. unfold factor. destruct frame as [f|]; [|lra]. unfold convert.
  destruct coords, f; try exact Hn; [apply Rmult_le_pos|apply div_nonneg]; try exact Hn; apply pow_le; exact Ha.
Qed.

Lemma placed_mass (pl : part -> part) i periodic :
  (forall m p, normed2 periodic i (with_mass m p) = with_mass m (normed2 periodic i p)) /\
  (forall m p, normed_slice periodic i (with_mass m p) = with_mass m (normed_slice periodic i p)) /\
  (forall m p, normed3 periodic i (with_mass m p) = with_mass m (normed3 periodic i p)).
Proof.
  unfold normed2, normed_slice, normed3. destruct (i_box i) as [[bx by_] bz]. split; [reflexivity|split; reflexivity].
Qed.

(** A projection: whatever the region, the rotation, the mask and the depth range, sums with weights that do not depend on
    the quantity; and averages, if the region is not inside out. *)
Theorem C135_project : forall (A : Type) (pos : A -> part) l backend a coords frame n periodic box r rotation mask,
  let draw q := values (project backend a coords frame n periodic box r rotation mask (rows pos q l)) in
  ((forall bx by_, smoothing (backend n bx by_)) -> smooths draw l) /\
  ((forall bx by_, averaging (backend n bx by_)) -> 0 <= a -> ordered box r -> (forall x, In x l -> 0 <= p_h (pos x)) -> averages draw l).
Proof.
  intros A pos l backend a coords frame n periodic box r rotation mask draw. unfold draw, project. clear draw.
  destruct (region_info false periodic box r) as [i|e] eqn:EI; cbn [bind]; [|split; intros; left; exists e; reflexivity].
  destruct (placed_place periodic box rotation) as [[e F]|[place [P1 [P2 P3]]]].
  { split; intros; left; exists e; intro q; rewrite F; reflexivity. }
  destruct (depth_mask periodic box i mask (map place (rows pos (fun _ => 1) l))) as [mk|e] eqn:ED.
  2: { split; intros; left; exists e; intro q; destruct (P3 (rows pos q l)) as [st ->]; cbn [bind];
       rewrite (depth_rows periodic box i mask pos q (fun _ => 1) l place P1), ED; reflexivity. }
  destruct (pick mk l) as [l'|e] eqn:EP.
  2: { split; intros; left; exists e; intro q; destruct (P3 (rows pos q l)) as [st ->]; cbn [bind];
       rewrite (depth_rows periodic box i mask pos q (fun _ => 1) l place P1), ED; cbn [bind]; unfold rows;
       rewrite map_map, pick_map, EP; reflexivity. }
  destruct (i_box i) as [[bx by_] bz] eqn:EB.
  destruct (placed_mass place i periodic) as [N2 _].
  destruct (common pos l mk l' (backend n bx by_) (factor a 2 coords frame (i_xrange i * i_yrange i))
    (fun p => normed2 periodic i (place p))
    (fun q => values (do both <- placed periodic box rotation (rows pos q l);
      (let '(qs, stored) := both in do mask0 <- depth_mask periodic box i mask qs; do used <- pick mask0 qs;
       do img <- backend n bx by_ (map (normed2 periodic i) used);
       Ok (mkpicture [stop_index n (pixels n (i_xrange i) (i_max i)); stop_index n (pixels n (i_yrange i) (i_max i))]
            (normalise a 2 coords frame (i_xrange i * i_yrange i) img), stored))))) as [C1 C2].
  - intros m p. rewrite P1, N2. reflexivity.
  - exact EP.
  - intro q. destruct (P3 (rows pos q l)) as [st ->]. cbn [bind].
    rewrite (depth_rows periodic box i mask pos q (fun _ => 1) l place P1), ED. cbn [bind]. unfold rows.
    rewrite map_map, pick_map, EP. cbn [bind]. rewrite !map_map.
    destruct (backend n bx by_ _) as [img|e]; reflexivity.
  - split; [intro S; apply C1, S|]. intros S Ha O Hh. destruct (ordered_info _ _ _ _ _ O EI) as [O1 [O2 [O3 O4]]].
    apply C2; [apply S|apply factor_nonneg; [exact Ha|apply Rmult_le_pos; assumption]| |exact Hh].
    intros p Hp. unfold normed2. rewrite EB. cbn [p_h]. rewrite P2. apply div_nonneg; assumption.
Qed.

(** A slice. *)
Theorem C135_slice : forall (A : Type) (pos : A -> part) l backend a coords frame n z_slice periodic box r rotation mask,
  let draw q := values (slice_grid backend a coords frame n z_slice periodic box r rotation mask (rows pos q l)) in
  ((forall xres yres zs bx by_ bz, smoothing (backend xres yres zs bx by_ bz)) -> smooths draw l) /\
  ((forall xres yres zs bx by_ bz, averaging (backend xres yres zs bx by_ bz)) -> 0 <= a -> ordered box r ->
   (forall x, In x l -> 0 <= p_h (pos x)) -> averages draw l).
Proof.
  intros A pos l backend a coords frame n z_slice periodic box r rotation mask draw. unfold draw, slice_grid. clear draw. cbv zeta.
  destruct (region_info false periodic box r) as [i|e] eqn:EI; cbn [bind]; [|split; intros; left; exists e; reflexivity].
  destruct (placed_place periodic box rotation) as [[e F]|[place [P1 [P2 P3]]]].
  { split; intros; left; exists e; intro q; rewrite F; reflexivity. }
  destruct (pick mask l) as [l'|e] eqn:EP.
  2: { split; intros; left; exists e; intro q; destruct (P3 (rows pos q l)) as [st ->]; cbn [bind]; unfold rows;
       rewrite map_map, pick_map, EP; reflexivity. }
  destruct (i_box i) as [[bx by_] bz] eqn:EB.
  destruct (placed_mass place i periodic) as [_ [N2 _]].
  match goal with |- (_ -> smooths ?d _) /\ _ => set (draw := d) end.
  pose (plane := rem_if periodic ((match z_slice with Some z => z | None => 0 end +
    match rotation with Some (_, (_, _, c)) => c | None => 0 end) / i_max i) bz).
  destruct (common pos l mask l'
    (backend (pixels_slice n (i_xrange i) (i_max i)) (pixels_slice n (i_yrange i) (i_max i)) plane bx by_ bz)
    (factor a 3 coords frame (i_max i ^ 3)) (fun p => normed_slice periodic i (place p)) draw) as [C1 C2].
  - intros m p. rewrite P1, N2. reflexivity.
  - exact EP.
  - intro q. unfold draw. destruct (P3 (rows pos q l)) as [st ->]. cbn [bind]. unfold rows.
    rewrite map_map, pick_map, EP. cbn [bind]. rewrite !map_map. fold plane.
    destruct (backend _ _ plane bx by_ bz _) as [img|e]; reflexivity.
  - split; [intro S; apply C1, S|]. intros S Ha O Hh. destruct (ordered_info _ _ _ _ _ O EI) as [O1 [O2 [O3 O4]]].
    apply C2; [apply S|apply factor_nonneg; [exact Ha|apply pow_le; exact O4]| |exact Hh].
    intros p Hp. unfold normed_slice. rewrite EB. cbn [p_h]. rewrite P2. apply div_nonneg; assumption.
Qed.

(** A volume. *)
Theorem C135_volume : forall (A : Type) (pos : A -> part) l backend a coords frame n periodic box r rotation mask,
  let draw q := values (voxel_grid backend a coords frame n periodic box r rotation mask (rows pos q l)) in
  ((forall bx by_ bz, smoothing (backend n bx by_ bz)) -> smooths draw l) /\
  ((forall bx by_ bz, averaging (backend n bx by_ bz)) -> 0 <= a -> ordered box r -> (forall x, In x l -> 0 <= p_h (pos x)) -> averages draw l).
Proof.
  intros A pos l backend a coords frame n periodic box r rotation mask draw. unfold draw, voxel_grid. clear draw.
  destruct (region_info true periodic box r) as [i|e] eqn:EI; cbn [bind]; [|split; intros; left; exists e; reflexivity].
  destruct (placed_place periodic box rotation) as [[e F]|[place [P1 [P2 P3]]]].
  { split; intros; left; exists e; intro q; rewrite F; reflexivity. }
  destruct (pick mask l) as [l'|e] eqn:EP.
  2: { split; intros; left; exists e; intro q; destruct (P3 (rows pos q l)) as [st ->]; cbn [bind]; unfold rows;
       rewrite map_map, pick_map, EP; reflexivity. }
  destruct (i_box i) as [[bx by_] bz] eqn:EB.
  destruct (placed_mass place i periodic) as [_ [_ N2]].
  match goal with |- (_ -> smooths ?d _) /\ _ => set (draw := d) end.
  destruct (common pos l mask l' (backend n bx by_ bz) (factor a 3 coords frame (i_xrange i * i_yrange i * i_zrange i))
    (fun p => normed3 periodic i (place p)) draw) as [C1 C2].
  - intros m p. rewrite P1, N2. reflexivity.
  - exact EP.
  - intro q. unfold draw. destruct (P3 (rows pos q l)) as [st ->]. cbn [bind]. unfold rows.
    rewrite map_map, pick_map, EP. cbn [bind]. rewrite !map_map.
    destruct (backend n bx by_ bz _) as [img|e]; reflexivity.
  - split; [intro S; apply C1, S|]. intros S Ha O Hh. destruct (ordered_info _ _ _ _ _ O EI) as [O1 [O2 [O3 O4]]].
    apply C2; [apply S|apply factor_nonneg; [exact Ha|repeat apply Rmult_le_pos; assumption]| |exact Hh].
    intros p Hp. unfold normed3. rewrite EB. cbn [p_h]. rewrite P2. apply div_nonneg; assumption.
Qed.

(** The map of docs/source/visualisation/projection.rst: the projection of mass times temperature divided by that of the mass,
    on any backend that averages, such as [fast]. *)
Theorem C135_temperature_map : forall (A : Type) (pos : A -> part) l (m t : A -> R) lo hi backend a coords frame n periodic box r rotation
    mask pic pic' st st',
  (forall bx by_, averaging (backend n bx by_)) -> 0 <= a -> ordered box r -> (forall x, In x l -> 0 <= p_h (pos x)) ->
  (forall x, In x l -> 0 <= m x) -> (forall x, In x l -> lo <= t x <= hi) ->
  project backend a coords frame n periodic box r rotation mask (rows pos m l) = Ok (pic, st) ->
  project backend a coords frame n periodic box r rotation mask (rows pos (fun x => m x * t x) l) = Ok (pic', st') ->
  forall c, pic_image pic c <> 0 -> lo <= pic_image pic' c / pic_image pic c <= hi.
Proof.
  intros A pos l m t lo hi backend a coords frame n periodic box r rotation mask pic pic' st st' B Ha O Hh Hm Ht E E' c N.
  destruct (C135_project A pos l backend a coords frame n periodic box r rotation mask) as [_ C].
  apply (C135_mean A _ l m t lo hi (pic_image pic) (pic_image pic') (C B Ha O Hh) Hm Ht); [rewrite E|rewrite E'|exact N]; reflexivity.
Qed.

(** Two particles of masses 1 and 3 and temperatures 10 and 20 in one pixel: 17.5. *)
Lemma one_pixel m h x y z : 0 <= x < 1 -> 0 <= y < 1 -> histogram_part 1 0 0 (mkpart x y z m h) = [([0; 0]%Z, m)].
Proof.
  intros X Y. unfold histogram_part, copies2, shifts. destruct (Req_EM_T 0 0) as [_|N]; [|exfalso; apply N; reflexivity].
  change (zrange 0 1) with [0%Z]. cbn [flat_map p_x p_y p_m app]. unfold histogram_at. cbv zeta.
  rewrite (floor_unique (1 * (x + 0 * 0)) 0) by lra. rewrite (floor_unique (1 * (y + 0 * 0)) 0) by lra. cbn.
  repeat f_equal. ring.
Qed.
Example C135_case :
  let pos x := if (x =? 0)%Z then mkpart (/ 4) (/ 4) 0 0 0 else mkpart (/ 2) (/ 2) 0 0 0 in
  let m x := if (x =? 0)%Z then 1 else 3 in let t x := if (x =? 0)%Z then 10 else 20 in
  exists img img', drawn (histogram 1 0 0) pos [0; 1]%Z m = Ok img /\ drawn (histogram 1 0 0) pos [0; 1]%Z (fun x => m x * t x) = Ok img' /\
    img [0; 0]%Z = 4 /\ img' [0; 0]%Z / img [0; 0]%Z = 35 / 2.
Proof.
  intros pos m t. subst pos m t. unfold drawn, histogram, rows, with_mass. cbn [map flat_map Z.eqb Pos.eqb p_x p_y p_z p_h].
  rewrite !one_pixel by lra. cbn [app]. unfold render. cbn [perform in_bounds square Z.leb Z.ltb Z.compare andb].
  eexists. eexists. split; [reflexivity|split; [reflexivity|]]. unfold add_at, zeros. rewrite !cell_eqb_refl. split; [lra|].
  replace (0 + 1 + 3) with 4 by lra. field.
Qed.
(** The same map with the picture functions: the hypotheses hold for the backend [fast] and the whole box. *)
Example C135_fast_case : forall bx by_, averaging (fast 256 bx by_).
Proof. intros. apply (C135_backends_average 256 bx by_ 0 0 0 0 1 0 0 0); [lia|lra|lia]. Qed.
Example C135_box_case : ordered (1, 1, 1) None /\ ordered (1, 1, 1) (Some (mkregion 0 (/ 2) 0 (/ 2) None)).
Proof. cbn. lra. Qed.

(** * Slices with the nearest particles *)

(** The row whose particle a pixel shows, if any. *)
Definition shown (xres yres : Z) (zs : R) (box : vec) (points : list vec) (c : cell) : option nat :=
  match points, c with
  | first :: rest, [i; j] => let q := wrap_point box (pixel_point xres yres zs i j) in
                             Some (nearest box q rest 1 0 (tree_distance box q first))
  | _, _ => None
  end.
Definition from_row (o : option nat) (k : nat) (w : R) : R := match o with Some j => if Nat.eqb j k then w else 0 | None => 0 end.
Fixpoint weights {A} (w : A -> R) (show : cell -> option nat) (k : nat) (l : list A) : list (cell -> R) :=
  match l with [] => [] | x :: l => (fun c => from_row (show c) k (w x)) :: weights w show (S k) l end.
Lemma weights_length {A} (w : A -> R) show : forall (l : list A) k, length (weights w show k l) = length l.
Proof. induction l as [|x l IH]; intro k; [reflexivity|]. cbn [weights length]. f_equal. apply IH. Qed.
Lemma weights_sum {A} (w : A -> R) show q c : forall (l : list A) k, 
  sum_with q l (map (fun v => v c) (weights w show k l)) =
  match show c with Some j => if (k <=? j)%nat then match nth_error l (j - k) with Some x => q x * w x | None => 0 end else 0 | None => 0 end.
Proof.
  unfold sum_with. induction l as [|x l IH]; intro k.
  - cbn. destruct (show c) as [j|]; [|reflexivity]. destruct (k <=? j)%nat; [|reflexivity]. destruct (j - k)%nat; reflexivity.
  - cbn [weights map combine fst snd]. rewrite sumR_cons, IH. unfold from_row. destruct (show c) as [j|]; [|lra].
    destruct (Nat.eqb j k) eqn:E.
    + apply Nat.eqb_eq in E. subst j. rewrite Nat.leb_refl, Nat.sub_diag. replace (S k <=? k)%nat with false by (symmetry; apply Nat.leb_gt; lia).
      cbn [nth_error]. lra.
    + apply Nat.eqb_neq in E. destruct (k <=? j)%nat eqn:F.
      * apply Nat.leb_le in F. replace (S k <=? j)%nat with true by (symmetry; apply Nat.leb_le; lia).
        replace (j - k)%nat with (S (j - S k)) by lia. cbn [nth_error]. lra.
      * apply Nat.leb_gt in F. replace (S k <=? j)%nat with false by (symmetry; apply Nat.leb_gt; lia). lra.
Qed.

Definition inverse_cube (h : R) : R := 1 / (h * h * h).
Lemma nearest_weighs {A} xres yres zs box (pos : A -> part) l :
  fails (drawn (nearest_slice xres yres zs box) pos l) \/
  exists show, weighs (drawn (nearest_slice xres yres zs box) pos l) l (weights (fun x => inverse_cube (p_h (pos x))) show 0 l).
Proof.
  assert (P : forall q, map (fun p => wrap_point box (p_x p, p_y p, p_z p)) (rows pos q l) =
    map (fun x => wrap_point box (p_x (pos x), p_y (pos x), p_z (pos x))) l).
  { intro q. unfold rows. rewrite map_map. reflexivity. }
  unfold drawn, nearest_slice, fails, weighs.
  destruct (build box (map (fun x => wrap_point box (p_x (pos x), p_y (pos x), p_z (pos x))) l)) as [points|e] eqn:E.
  2: { left. exists e. intro q. rewrite P, E. reflexivity. }
  destruct points as [|first rest].
  { left. exists IndexError. intro q. rewrite P, E. reflexivity. }
  right. exists (shown xres yres zs box (first :: rest)). split; [apply weights_length|]. intro q. rewrite P, E. cbn [bind].
  eexists. split; [reflexivity|]. intro c. rewrite weights_sum. unfold shown.
  destruct c as [|i [|j [|k c]]]; try reflexivity. cbv zeta. rewrite Nat.sub_0_r. cbn [Nat.leb].
  unfold rows. rewrite nth_error_map. destruct (nth_error l _) as [x|]; cbn [option_map]; [|reflexivity].
  cbn [with_mass p_m p_h]. unfold inverse_cube, Rdiv. ring.
Qed.

Theorem C135_nearest : forall xres yres zs bx by_ bz,
  smoothing (nearest_backend xres yres zs bx by_ bz) /\ averaging (nearest_backend xres yres zs bx by_ bz).
Proof.
  intros xres yres zs bx by_ bz. split.
  - intros A pos l. destruct (nearest_weighs xres yres zs (bx, by_, bz) pos l) as [F|[show W]]; [left; exact F|right; eexists; exact W].
  - intros A pos l H. destruct (nearest_weighs xres yres zs (bx, by_, bz) pos l) as [F|[show W]]; [left; exact F|right; eexists; split; [exact W|]].
    clear W. generalize 0%nat as k. induction l as [|x l IH]; intro k; constructor.
    + intro c. unfold from_row. destruct (show c) as [j|]; [|lra]. destruct (Nat.eqb j k); [|lra]. unfold inverse_cube.
      assert (P := H x (or_introl eq_refl)). apply div_nonneg; [lra|]. apply Rmult_le_pos; [apply Rmult_le_pos|]; exact P.
    + apply IH. intros y I. apply H. right. exact I.
Qed.

(** Here the quotient of two slices shows values of [t] itself, not averages, whatever the signs. *)
Theorem C135_nearest_values : forall (A : Type) (pos : A -> part) l xres yres zs bx by_ bz m t img img',
  drawn (nearest_backend xres yres zs bx by_ bz) pos l m = Ok img ->
  drawn (nearest_backend xres yres zs bx by_ bz) pos l (fun x => m x * t x) = Ok img' ->
  forall c, img c <> 0 -> exists x, In x l /\ img' c / img c = t x.
Proof.
  intros A pos l xres yres zs bx by_ bz m t img img' E E' c N.
  change (nearest_backend xres yres zs bx by_ bz) with (nearest_slice xres yres zs (bx, by_, bz)) in E, E'.
  destruct (nearest_weighs xres yres zs (bx, by_, bz) pos l) as [[e F]|[show [L W]]]; [rewrite F in E; discriminate|].
  destruct (W m) as [i [Ei Vi]]. destruct (W (fun x => m x * t x)) as [j [Ej Vj]].
  rewrite E in Ei. rewrite E' in Ej. injection Ei as <-. injection Ej as <-. rewrite Vi in *. rewrite Vj. rewrite weights_sum in *. rewrite weights_sum.
  destruct (show c) as [k|]; [|exfalso; apply N; reflexivity]. cbn [Nat.leb] in *. rewrite Nat.sub_0_r in *.
  destruct (nth_error l k) as [x|] eqn:K; [|exfalso; apply N; reflexivity].
  exists x. split; [eapply nth_error_In; exact K|].
  replace (m x * t x * inverse_cube (p_h (pos x))) with (t x * (m x * inverse_cube (p_h (pos x)))) by ring.
  field. split; intro Z; apply N; rewrite Z; ring.
Qed.

Print Assumptions C135_combination.
Print Assumptions C135_failures.
Print Assumptions C135_order.
Print Assumptions C135_mean.
Print Assumptions C135_backends_linear.
Print Assumptions C135_backends_average.
Print Assumptions C135_mean_parallel.
Print Assumptions C135_project.
Print Assumptions C135_slice.
Print Assumptions C135_volume.
Print Assumptions C135_temperature_map.
Print Assumptions C135_case.
Print Assumptions C135_nearest.
Print Assumptions C135_nearest_values.

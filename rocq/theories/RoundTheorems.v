(** C111: compiled loops write inside their arrays, whatever the arithmetic. *)
From Coq Require Import List ZArith QArith Lia Bool.
From Verif Require Import Base BaseLemmas RoundModel RoundSpec.
Import ListNotations.
Open Scope Z_scope.

Lemma safe_nil {T} s : @safe T s [].
Proof. intros c v []. Qed.

Lemma safe_app {T} s (l l' : list (list Z * T)) : safe s l -> safe s l' -> safe s (l ++ l').
Proof. intros H H' c v I. apply in_app_or in I. destruct I; eauto. Qed.

Lemma safe_flat {B T} s (f : B -> list (list Z * T)) l : (forall x, In x l -> safe s (f x)) -> safe s (flat_map f l).
Proof. intros H c v I. apply in_flat_map in I. destruct I as (x & J & K). exact (H x J c v K). Qed.

Lemma safe_one {T} s c (v : T) : exists_in s c -> safe s [(c, v)].
Proof. intros H c' v' [E|[]]. injection E as <- <-. exact H. Qed.

Lemma within_iff n c : within n c = true <-> 0 <= c < n.
Proof. unfold within. rewrite andb_true_iff, !Z.leb_le. lia. Qed.

Lemma span_range_in n lo hi i : In i (span_range n lo hi) -> 0 <= i < n.
Proof. unfold span_range. rewrite In_zrange. lia. Qed.

Lemma pair_exists n n' i j : 0 <= i < n -> 0 <= j < n' -> exists_in [n; n'] [i; j].
Proof. intros. repeat constructor; assumption || lia. Qed.

Lemma triple_exists n n' n'' i j k : 0 <= i < n -> 0 <= j < n' -> 0 <= k < n'' -> exists_in [n; n'; n''] [i; j; k].
Proof. intros. repeat constructor; assumption || lia. Qed.

Lemma safe_over2 A n lo hi lo' hi' f : safe [n; n] (over2 A (span_range n lo hi) (span_range n lo' hi') f).
Proof.
  intros c v I. unfold over2 in I. apply in_flat_map in I. destruct I as (i & Hi & I). apply in_map_iff in I.
  destruct I as (j & E & Hj). injection E as <- _. apply pair_exists; eapply span_range_in; eassumption.
Qed.

Lemma safe_over3 A n nz lo hi lo' hi' lo2 hi2 f :
  safe [n; n; nz] (over3 A (span_range n lo hi) (span_range n lo' hi') (span_range nz lo2 hi2) f).
Proof.
  intros c v I. unfold over3 in I. apply in_flat_map in I. destruct I as (i & Hi & I).
  apply in_flat_map in I. destruct I as (j & Hj & I). apply in_map_iff in I.
  destruct I as (k & E & Hk). injection E as <- _. apply triple_exists; eapply span_range_in; eassumption.
Qed.

Lemma safe_point {T} n cx cy (v : T) : safe [n; n] (if within n cx && within n cy then [([cx; cy], v)] else []).
Proof.
  destruct (within n cx) eqn:X; [|apply safe_nil]. destruct (within n cy) eqn:Y; [|apply safe_nil].
  apply within_iff in X, Y. apply safe_one. apply pair_exists; assumption.
Qed.

Lemma safe_copies2 A s bx by_ f p : (forall x y, safe s (f x y)) -> safe s (copies2 A bx by_ f p).
Proof. intro H. unfold copies2. apply safe_flat. intros sx _. apply safe_flat. intros sy _. apply H. Qed.

Lemma safe_copies3 A s sh bx by_ bz f p : (forall x y z, safe s (f x y z)) -> safe s (copies3 A sh bx by_ bz f p).
Proof.
  intro H. unfold copies3. apply safe_flat. intros sx _. apply safe_flat. intros sy _. apply safe_flat. intros sz _. apply H.
Qed.

Lemma fast_at_safe A n m h x y : safe [n; n] (fast_at A n m h x y).
Proof.
  unfold fast_at. destruct (_ || _); [apply safe_nil|]. destruct (_ <=? 1); [apply safe_point|apply safe_over2].
Qed.

Lemma reference_loop_safe A n m h x y0 by_ sh : safe [n; n] (reference_loop A n m h x y0 by_ sh).
Proof.
  induction sh as [|sy sh IH]; [apply safe_nil|]. cbn [reference_loop]. destruct (_ || _); [exact IH|].
  destruct (_ <=? 2); [apply safe_nil|]. apply safe_app; [apply safe_over2|exact IH].
Qed.

(** Every projection. *)
Theorem C111_projections : forall (A : arith) n bx by_ (p : rpart A),
  safe [n; n] (fast_part A n bx by_ p) /\ safe [n; n] (histogram_part A n bx by_ p)
  /\ safe [n; n] (renormalised_part A n bx by_ p) /\ safe [n; n] (reference_part A n bx by_ p)
  /\ forall evals dither, safe [n; n] (subsampled_part A evals dither n bx by_ p).
Proof.
  intros A n bx by_ p. split; [|split; [|split; [|split]]].
  - apply safe_copies2. intros. apply fast_at_safe.
  - apply safe_copies2. intros x y. unfold histogram_at. cbv zeta.
    set (cx := cell_of A _ x). set (cy := cell_of A _ y).
    destruct (Z.ltb_spec cx 0); cbn [orb negb]; [apply safe_nil|].
    destruct (Z.ltb_spec (n - 1) cx); cbn [orb negb]; [apply safe_nil|].
    destruct (Z.ltb_spec cy 0); cbn [orb negb]; [apply safe_nil|].
    destruct (Z.ltb_spec (n - 1) cy); cbn [orb negb]; [apply safe_nil|].
    apply safe_one. apply pair_exists; lia.
  - apply safe_copies2. intros x y. unfold renormalised_at. destruct (_ || _); [apply safe_nil|].
    destruct (_ <=? 1); [apply safe_point|apply safe_over2].
  - unfold reference_part. apply safe_flat. intros sx _. apply reference_loop_safe.
  - intros evals dither. apply safe_copies2. intros x y. unfold subsampled_at.
    destruct (_ || _); [apply safe_nil|]. destruct (less_eq A _ _); [|apply safe_over2].
    destruct (negb _); cbn [andb].
    + destruct (within n (cell_of A _ x)) eqn:X; cbn [andb].
      * destruct (within n (cell_of A _ y)) eqn:Y.
        -- apply within_iff in X, Y. apply safe_one. apply pair_exists; assumption.
        -- apply safe_flat. intros a _. apply safe_flat. intros b _. apply safe_point.
      * apply safe_flat. intros a _. apply safe_flat. intros b _. apply safe_point.
    + apply safe_flat. intros a _. apply safe_flat. intros b _. apply safe_point.
Qed.

(** Threads of the GPU, of whatever numbers. *)
Theorem C111_gpu : forall (A : arith) n bx by_ (ps : list (rpart A)) t, safe [n; n] (gpu_thread A n bx by_ ps t).
Proof.
  intros A n bx by_ ps [[i dx] dy]. unfold gpu_thread. destruct (nth_error ps (Z.to_nat i)); [|apply safe_nil].
  apply fast_at_safe.
Qed.

Theorem C111_slices : forall (A : arith) n z_slice bx by_ bz (p : rpart A),
  safe [n; n] (slice_part A n z_slice bx by_ bz p).
Proof.
  intros. apply safe_copies3. intros x y z. unfold slice_at. destruct (_ || _); [apply safe_nil|apply safe_over2].
Qed.

Lemma voxel_at_safe A nz n m h x y z : safe [n; n; nz] (voxel_at A nz n m h x y z).
Proof.
  unfold voxel_at. destruct (_ || _ || _); [apply safe_nil|]. destruct (_ || _); [|apply safe_over3].
  destruct (within n (cell_of A _ x)) eqn:X; cbn [andb]; [|apply safe_nil].
  destruct (within n (cell_of A _ y)) eqn:Y; cbn [andb]; [|apply safe_nil].
  destruct (within nz (cell_of A _ z)) eqn:Z; [|apply safe_nil].
  apply within_iff in X, Y, Z. apply safe_one. apply triple_exists; assumption.
Qed.

Theorem C111_volumes : forall (A : arith) n bx by_ bz (p : rpart A),
  safe [n; n; n] (volume_part A n bx by_ bz p)
  /\ forall ratio, safe [n; n; n / ratio] (limited_part A n ratio bx by_ bz p).
Proof. intros. split; [|intro ratio]; apply safe_copies3; intros; apply voxel_at_safe. Qed.

Print Assumptions C111_projections.
Print Assumptions C111_gpu.
Print Assumptions C111_slices.
Print Assumptions C111_volumes.

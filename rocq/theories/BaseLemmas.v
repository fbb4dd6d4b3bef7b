(** Lemmas about the shared vocabulary. *)
From Coq Require Import List ZArith Lia Bool Permutation.
From Verif Require Import Base.
Import ListNotations.
Open Scope Z_scope.

Lemma zlen_nil {A} : zlen (@nil A) = 0.
Proof. reflexivity. Qed.

Lemma zlen_cons {A} (x : A) l : zlen (x :: l) = 1 + zlen l.
Proof. unfold zlen; cbn [length]; lia. Qed.

Lemma zlen_app {A} (l m : list A) : zlen (l ++ m) = zlen l + zlen m.
Proof. unfold zlen; rewrite app_length; lia. Qed.

Lemma zlen_nonneg {A} (l : list A) : 0 <= zlen l.
Proof. unfold zlen; lia. Qed.

Lemma zlen_map {A B} (f : A -> B) l : zlen (map f l) = zlen l.
Proof. unfold zlen; now rewrite map_length. Qed.

Lemma zrange_length a b : length (zrange a b) = Z.to_nat (b - a).
Proof. unfold zrange; now rewrite map_length, seq_length. Qed.

Lemma zlen_zrange a b : zlen (zrange a b) = Z.max 0 (b - a).
Proof. unfold zlen; rewrite zrange_length; lia. Qed.

Lemma zrange_nil a b : b <= a -> zrange a b = [].
Proof.
  intros H. unfold zrange. replace (Z.to_nat (b - a)) with O by lia. reflexivity.
Qed.

Lemma zrange_cons a b : a < b -> zrange a b = a :: zrange (a + 1) b.
Proof.
  intros H. unfold zrange.
  replace (Z.to_nat (b - a)) with (S (Z.to_nat (b - (a + 1)))) by lia.
  cbn [seq map]. f_equal; [lia|].
  rewrite <- seq_shift, map_map. apply map_ext. intros; lia.
Qed.

Lemma zrange_snoc a b : a <= b -> zrange a (b + 1) = zrange a b ++ [b].
Proof.
  intros H. unfold zrange.
  replace (Z.to_nat (b + 1 - a)) with (S (Z.to_nat (b - a))) by lia.
  rewrite seq_S, map_app. cbn [map]. do 2 f_equal. lia.
Qed.

Lemma zrange_app a b c : a <= b -> b <= c -> zrange a c = zrange a b ++ zrange b c.
Proof.
  intros H1 H2. unfold zrange.
  replace (Z.to_nat (c - a)) with (Z.to_nat (b - a) + Z.to_nat (c - b))%nat by lia.
  rewrite seq_app, map_app. f_equal.
  cbn [plus].
  rewrite <- (Nat.add_0_r (Z.to_nat (b - a))) at 1.
  assert (E : forall n s t, map (fun k => a + Z.of_nat k) (seq (s + t) n)
                        = map (fun k => (a + Z.of_nat s) + Z.of_nat k) (seq t n)).
  { induction n as [|n IH]; intros s t; cbn [seq map]; [reflexivity|].
    f_equal; [lia|]. replace (S (s + t)) with (s + S t)%nat by lia. apply IH. }
  rewrite E. apply map_ext. intros; lia.
Qed.

Lemma In_zrange x a b : In x (zrange a b) <-> a <= x < b.
Proof.
  unfold zrange. rewrite in_map_iff. split.
  - intros (k & <- & Hk). apply in_seq in Hk. lia.
  - intros H. exists (Z.to_nat (x - a)). split; [lia|]. apply in_seq. lia.
Qed.

Lemma NoDup_zrange a b : NoDup (zrange a b).
Proof.
  unfold zrange. apply FinFun.Injective_map_NoDup; [|apply seq_NoDup].
  intros x y. lia.
Qed.

Lemma nth_error_zrange a b k :
  (k < Z.to_nat (b - a))%nat -> nth_error (zrange a b) k = Some (a + Z.of_nat k).
Proof.
  intros H. unfold zrange. rewrite nth_error_map.
  rewrite (nth_error_nth' _ O) by (rewrite seq_length; lia).
  rewrite seq_nth by lia. reflexivity.
Qed.

Lemma zrange_shift a b d : zrange (a + d) (b + d) = map (fun x => x + d) (zrange a b).
Proof.
  unfold zrange. rewrite map_map. replace (b + d - (a + d)) with (b - a) by lia.
  apply map_ext. intros; lia.
Qed.

Lemma sumZ_app l m : sumZ (l ++ m) = sumZ l + sumZ m.
Proof. induction l; cbn [sumZ fold_right app] in *; [reflexivity|]. unfold sumZ in *. cbn. lia. Qed.

Lemma sumZ_cons x l : sumZ (x :: l) = x + sumZ l.
Proof. reflexivity. Qed.

Lemma splice_length {A} pos (vals buf : list A) :
  (pos + length vals <= length buf)%nat -> length (splice pos vals buf) = length buf.
Proof.
  intros H. unfold splice. rewrite !app_length, firstn_length, skipn_length. lia.
Qed.

Lemma upd_length {A} i (x : A) l : length (upd i x l) = length l.
Proof. revert i; induction l; intros [|i]; cbn; auto. Qed.

Lemma nth_error_upd_eq {A} i (x : A) l :
  (i < length l)%nat -> nth_error (upd i x l) i = Some x.
Proof.
  revert i; induction l; intros [|i] H; cbn in *; try lia; auto. apply IHl. lia.
Qed.

Lemma nth_error_upd_neq {A} i j (x : A) l :
  i <> j -> nth_error (upd i x l) j = nth_error l j.
Proof.
  revert i j; induction l; intros [|i] [|j] H; cbn in *; try congruence; auto.
Qed.

Lemma bind_ok {A B} (x : res A) (f : A -> res B) b :
  bind x f = Ok b <-> exists a, x = Ok a /\ f a = Ok b.
Proof.
  destruct x; cbn; split; intros H; eauto; try discriminate.
  - now destruct H as (a' & [= ->] & H).
  - now destruct H as (a' & ? & H).
Qed.

Lemma all_ok_map_ok {A B} (f : A -> B) l : all_ok (map (fun x => Ok (f x)) l) = Ok (map f l).
Proof. induction l; cbn; [reflexivity|]. now rewrite IHl. Qed.

Lemma all_ok_spec {A} (l : list (res A)) r :
  all_ok l = Ok r <-> l = map Ok r.
Proof.
  revert r. induction l as [|x l IH]; intros r; cbn.
  - split; [intros [= <-]; reflexivity|]. destruct r; cbn; congruence.
  - destruct x.
    + destruct (all_ok l) eqn:E.
      * split.
        -- intros [= <-]. cbn. f_equal. now apply IH.
        -- destruct r as [|y r]; cbn; [discriminate|]. intros [= -> H].
           apply IH in H. congruence.
      * split; [discriminate|]. destruct r as [|y r]; cbn; [discriminate|].
        intros [= -> H]. apply IH in H. congruence.
    + split; [discriminate|]. destruct r; cbn; congruence.
Qed.

Lemma nth_error_ext' {A} (l : list A) : forall m,
  length l = length m -> (forall j, nth_error l j = nth_error m j) -> l = m.
Proof.
  induction l as [|x l IH]; intros [|y m] Hl H; cbn in Hl; try discriminate; [reflexivity|].
  f_equal; [specialize (H O); cbn in H; congruence|]. apply IH; [congruence|].
  intros j. apply (H (S j)).
Qed.

(** Conversions to 32-bit integers in the loops of the visualisation backends. *)
From Coq Require Import List ZArith QArith Reals Lra Lia Bool.
From Verif Require Import Base BaseLemmas RoundModel NarrowModel NarrowSpec.
Import ListNotations.
Open Scope Z_scope.

Lemma flat_map_ext_in {X Y} (f g : X -> list Y) l : (forall x, f x = g x) -> flat_map f l = flat_map g l.
Proof. intros H. induction l as [|x l IH]; [reflexivity|]. cbn [flat_map]. now rewrite H, IH. Qed.

Section Any.
Variable A : arith.
Variable narrow : Z -> Z.
Hypothesis N : keeps_outside narrow.
Notation conv := (fun x => narrow (int32 A x)).
Notation B := (with_int32 A (fun x => narrow (int32 A x))).

Lemma narrow_fits z : fits z -> narrow z = z.
Proof. exact (proj1 (N z)). Qed.

Lemma small_fits n s : small n s -> narrow s = s.
Proof. intros H. apply narrow_fits. unfold small, fits in *. lia. Qed.

(** The index is the same, or it is outside in both cases. *)
Lemma narrow_index n s c : small n s ->
  narrow c = c \/ (outside n (narrow c) s = true /\ outside n c s = true).
Proof.
  intros Hs. destruct (N c) as [N1 N2]. unfold fits, small in *. destruct (Z_le_dec (- 2147483648) c) as [H1|H1], (Z_le_dec c 2147483647) as [H2|H2].
  1: left; apply N1; lia.
  all: right; unfold outside; destruct N2 as [-> | -> ]; [lia|..].
  all: rewrite !orb_true_iff, !Z.ltb_lt; split; lia.
Qed.

Lemma narrow_within n c : 0 <= n <= 2147483647 -> within n (narrow c) = within n c.
Proof.
  intros Hn. destruct (N c) as [N1 N2]. unfold fits in *. destruct (Z_le_dec (- 2147483648) c) as [H1|H1], (Z_le_dec c 2147483647) as [H2|H2].
  1: now rewrite N1.
  all: unfold within; destruct N2 as [-> | -> ]; [lia|..]; apply eq_true_iff_eq; rewrite !andb_true_iff, !Z.leb_le; lia.
Qed.

Lemma cell_narrow res x : cell_of B res x = narrow (cell_of A res x).
Proof. reflexivity. Qed.
Lemma span_narrow res w : span B res w = narrow (span A res w).
Proof. reflexivity. Qed.

Lemma fast_at_narrow n m h x y : small n (span A (single A (of_int A n)) (mul A (gamma2 A) h)) ->
  fast_at B n m h x y = fast_at A n m h x y.
Proof.
  intros Hs. unfold fast_at. cbv zeta. rewrite !cell_narrow, span_narrow.
  change (span A (single B (of_int B n)) (mul B (gamma2 B) h)) with (span A (single A (of_int A n)) (mul A (gamma2 A) h)).
  rewrite (small_fits _ _ Hs). set (s := span A _ _) in *.
  change (cell_of A (double B (of_int B n)) x) with (cell_of A (double A (of_int A n)) x).
  change (cell_of A (double B (of_int B n)) y) with (cell_of A (double A (of_int A n)) y).
  destruct (narrow_index n s (cell_of A (double A (of_int A n)) x) Hs) as [-> |[-> -> ]]; [|reflexivity].
  destruct (narrow_index n s (cell_of A (double A (of_int A n)) y) Hs) as [-> |[-> -> ]]; [|now rewrite !orb_true_r].
  reflexivity.
Qed.

Lemma copies2_narrow bx by_ f g p : (forall x y, f x y = g x y) -> copies2 B bx by_ f (same_part conv p) = copies2 A bx by_ g p.
Proof.
  intros H. unfold copies2. apply flat_map_ext_in. intros sx. apply flat_map_ext_in. intros sy. apply H.
Qed.

Lemma copies3_narrow sh bx by_ bz f g p : (forall x y z, f x y z = g x y z) ->
  copies3 B sh bx by_ bz f (same_part conv p) = copies3 A sh bx by_ bz g p.
Proof.
  intros H. unfold copies3. apply flat_map_ext_in. intros sx. apply flat_map_ext_in. intros sy. apply flat_map_ext_in. intros sz. apply H.
Qed.

Lemma histogram_at_narrow n m x y : 0 <= n <= 2147483647 -> histogram_at B n m x y = histogram_at A n m x y.
Proof.
  intros Hn. unfold histogram_at. cbv zeta. rewrite !cell_narrow.
  change (cell_of A (double B (of_int B n))) with (cell_of A (double A (of_int A n))).
  set (cx := cell_of A _ x). set (cy := cell_of A _ y).
  assert (W : forall c, negb ((c <? 0) || (n - 1 <? c)) = within n c).
  { intros c. unfold within. apply eq_true_iff_eq. rewrite negb_true_iff, orb_false_iff, andb_true_iff, !Z.ltb_ge, !Z.leb_le. lia. }
  assert (W2 : forall a b, negb ((a <? 0) || (n - 1 <? a) || (b <? 0) || (n - 1 <? b)) = within n a && within n b).
  { intros a b. rewrite <- !W, <- negb_orb. f_equal. now rewrite !orb_assoc. }
  rewrite !W2, !narrow_within by exact Hn. destruct (within n cx) eqn:E1, (within n cy) eqn:E2; try reflexivity.
  cbn [andb]. unfold within in E1, E2. rewrite andb_true_iff, !Z.leb_le in E1, E2.
  rewrite !narrow_fits by (unfold fits; lia). reflexivity.
Qed.

Lemma renormalised_at_narrow n m h x y : small n (span A (single A (of_int A n)) (mul A (gamma2 A) h)) ->
  renormalised_at B n m h x y = renormalised_at A n m h x y.
Proof.
  intros Hs. unfold renormalised_at. cbv zeta. rewrite !cell_narrow, span_narrow.
  change (span A (single B (of_int B n)) (mul B (gamma2 B) h)) with (span A (single A (of_int A n)) (mul A (gamma2 A) h)).
  rewrite (small_fits _ _ Hs). set (s := span A _ _) in *.
  change (cell_of A (double B (of_int B n)) x) with (cell_of A (double A (of_int A n)) x).
  change (cell_of A (double B (of_int B n)) y) with (cell_of A (double A (of_int A n)) y).
  destruct (narrow_index n s (cell_of A (double A (of_int A n)) x) Hs) as [-> |[-> -> ]]; [|reflexivity].
  destruct (narrow_index n s (cell_of A (double A (of_int A n)) y) Hs) as [-> |[-> -> ]]; [|now rewrite !orb_true_r].
  reflexivity.
Qed.

Lemma reference_loop_narrow n m h x y0 by_ sh : small n (span A (double A (of_int A n)) (mul A (gamma2 A) h)) ->
  reference_loop B n m h x y0 by_ sh = reference_loop A n m h x y0 by_ sh.
Proof.
  intros Hs. induction sh as [|sy sh IH]; [reflexivity|]. cbn [reference_loop]. cbv zeta. rewrite !cell_narrow, span_narrow, IH.
  change (span A (double B (of_int B n)) (mul B (gamma2 B) h)) with (span A (double A (of_int A n)) (mul A (gamma2 A) h)).
  rewrite (small_fits _ _ Hs). set (s := span A _ _) in *.
  change (cell_of A (double B (of_int B n)) x) with (cell_of A (double A (of_int A n)) x).
  change (cell_of A (double B (of_int B n)) (shifted B y0 sy by_)) with (cell_of A (double A (of_int A n)) (shifted A y0 sy by_)).
  destruct (narrow_index n s (cell_of A (double A (of_int A n)) x) Hs) as [-> |[-> -> ]]; [|reflexivity].
  destruct (narrow_index n s (cell_of A (double A (of_int A n)) (shifted A y0 sy by_)) Hs) as [-> |[-> -> ]]; [|now rewrite !orb_true_r].
  reflexivity.
Qed.

Lemma slice_at_narrow n zs m h x y z : small n (span A (single A (of_int A n)) (mul A (gamma3 A) h)) ->
  slice_at B n zs m h x y z = slice_at A n zs m h x y z.
Proof.
  intros Hs. unfold slice_at. cbv zeta. rewrite !cell_narrow, span_narrow.
  change (span A (single B (of_int B n)) (mul B (gamma3 B) h)) with (span A (single A (of_int A n)) (mul A (gamma3 A) h)).
  rewrite (small_fits _ _ Hs). set (s := span A _ _) in *.
  change (cell_of A (double B (of_int B n)) x) with (cell_of A (double A (of_int A n)) x).
  change (cell_of A (double B (of_int B n)) y) with (cell_of A (double A (of_int A n)) y).
  destruct (narrow_index n s (cell_of A (double A (of_int A n)) x) Hs) as [-> |[-> -> ]]; [|now rewrite !orb_true_r].
  destruct (narrow_index n s (cell_of A (double A (of_int A n)) y) Hs) as [-> |[-> -> ]]; [|now rewrite !orb_true_r].
  reflexivity.
Qed.

Lemma voxel_at_narrow nz n m h x y z : small n (span A (single A (of_int A n)) (mul A (gamma3 A) h)) ->
  small nz (span A (single A (of_int A nz)) (mul A (gamma3 A) h)) ->
  voxel_at B nz n m h x y z = voxel_at A nz n m h x y z.
Proof.
  intros Hs Hz. unfold voxel_at. cbv zeta. rewrite !cell_narrow, !span_narrow.
  change (span A (single B (of_int B n)) (mul B (gamma3 B) h)) with (span A (single A (of_int A n)) (mul A (gamma3 A) h)).
  change (span A (single B (of_int B nz)) (mul B (gamma3 B) h)) with (span A (single A (of_int A nz)) (mul A (gamma3 A) h)).
  rewrite (small_fits _ _ Hs), (small_fits _ _ Hz).
  set (s := span A (single A (of_int A n)) _) in *. set (sz := span A (single A (of_int A nz)) _) in *.
  change (cell_of A (double B (of_int B n)) x) with (cell_of A (double A (of_int A n)) x).
  change (cell_of A (double B (of_int B n)) y) with (cell_of A (double A (of_int A n)) y).
  change (cell_of A (double B (of_int B nz)) z) with (cell_of A (double A (of_int A nz)) z).
  destruct (narrow_index n s (cell_of A (double A (of_int A n)) x) Hs) as [-> |[-> -> ]]; [|reflexivity].
  destruct (narrow_index n s (cell_of A (double A (of_int A n)) y) Hs) as [-> |[-> -> ]]; [|now rewrite !orb_true_r].
  destruct (narrow_index nz sz (cell_of A (double A (of_int A nz)) z) Hz) as [-> |[-> -> ]]; [|now rewrite !orb_true_r].
  reflexivity.
Qed.

Lemma subsampled_at_narrow e d n m h x y :
  let fs := add A (one A) (mul A (double A (mul A (gamma2 A) h)) (double A (of_int A n))) in
  small n (int32 A fs) -> fits (int32 A (ceil A (div A (double A (of_int A e)) fs))) ->
  subsampled_at B e d n m h x y = subsampled_at A e d n m h x y.
Proof.
  intros fs Hs He. assert (Hn : 0 <= n <= 2147483647) by (unfold small in Hs; lia).
  unfold subsampled_at. cbv zeta. rewrite !cell_narrow.
  change (int32 B ?t) with (narrow (int32 A t)).
  change (add B (one B) (mul B (double B (mul B (gamma2 B) h)) (double B (of_int B n)))) with fs.
  change (add A (one A) (mul A (double A (mul A (gamma2 A) h)) (double A (of_int A n)))) with fs.
  rewrite (small_fits _ _ Hs). set (s := int32 A fs) in *.
  change (cell_of A (double B (of_int B n)) x) with (cell_of A (double A (of_int A n)) x).
  change (cell_of A (double B (of_int B n)) y) with (cell_of A (double A (of_int A n)) y).
  destruct (narrow_index n s (cell_of A (double A (of_int A n)) x) Hs) as [-> |[-> -> ]]; [|reflexivity].
  destruct (narrow_index n s (cell_of A (double A (of_int A n)) y) Hs) as [-> |[-> -> ]]; [|now rewrite !orb_true_r].
  change (ceil B (div B (double B (of_int B e)) fs)) with (ceil A (div A (double A (of_int A e)) fs)).
  rewrite (narrow_fits _ He).
  destruct (outside n _ s || outside n _ s); [reflexivity|].
  change (less_eq B (double B (mul B (gamma2 B) h)) (mul B (lit B (1 # 4)) (div B (one B) (double B (of_int B n)))))
    with (less_eq A (double A (mul A (gamma2 A) h)) (mul A (lit A (1 # 4)) (div A (one A) (double A (of_int A n))))).
  destruct (less_eq A _ _); [|reflexivity].
  match goal with |- (if ?a then _ else _) = (if ?b then _ else _) => change a with b; destruct b; [reflexivity|] end.
  apply flat_map_ext_in. intros a. apply flat_map_ext_in. intros b.
  assert (D : forall z c, dither_cell B d (double B (of_int B n)) (double B (mul B (gamma2 B) h)) z c
              = narrow (dither_cell A d (double A (of_int A n)) (double A (mul A (gamma2 A) h)) z c)) by reflexivity.
  rewrite !D. set (i := dither_cell A d _ _ x a). set (j := dither_cell A d _ _ y b).
  rewrite !narrow_within by exact Hn. destruct (within n i) eqn:E1, (within n j) eqn:E2; try reflexivity.
  cbn [andb]. unfold within in E1, E2. rewrite andb_true_iff, !Z.leb_le in E1, E2.
  rewrite !narrow_fits by (unfold fits; lia). reflexivity.
Qed.

End Any.

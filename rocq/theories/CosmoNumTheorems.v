(** C26: what the operations do with numbers and with numbers of entries. *)
From Coq Require Import List ZArith Bool Reals Lra Lia.
From Verif Require Import Base CosmoModel CosmoNumSpec.
Import ListNotations.
Open Scope R_scope.

(** The numbers: wherever the operation is defined on numbers, its value is the model's. *)
Theorem C26_numbers : forall o x y, (o = Bdiv -> y <> 0) ->
  gives2 o x y (bfun o x y) /\ (forall z, gives2 o x y z -> z = bfun o x y).
Proof.
  intros o x y D. split.
  - destruct o; cbn [bfun].
    + apply g_add. ring.
    + apply g_sub. ring.
    + apply g_mul. reflexivity.
    + apply g_div; [apply D; reflexivity|]. field. apply D; reflexivity.
    + destruct (Rle_dec x y) as [L|L].
      * rewrite Rmax_right by exact L. apply g_max_r. exact L.
      * rewrite Rmax_left by lra. apply g_max_l. lra.
    + destruct (Rle_dec x y) as [L|L].
      * rewrite Rmin_left by exact L. apply g_min_l. exact L.
      * rewrite Rmin_right by lra. apply g_min_r. lra.
  - intros z H. destruct H as [x y z H|x y z H|x y z H|x y z N H|x y L|x y L|x y L|x y L]; cbn [bfun].
    + lra.
    + lra.
    + exact H.
    + subst x. field. exact N.
    + rewrite Rmax_left by exact L. reflexivity.
    + rewrite Rmax_right by exact L. reflexivity.
    + rewrite Rmin_left by exact L. reflexivity.
    + rewrite Rmin_right by exact L. reflexivity.
Qed.

Lemma cube_inj : forall x y : R, x * x * x = y * y * y -> x = y.
Proof.
  intros x y H.
  assert (E : (x - y) * (x * x + x * y + y * y) = 0) by (ring_simplify; ring_simplify in H; lra).
  apply Rmult_integral in E. destruct E as [E|E]; [lra|].
  assert (S : (x + y / 2) * (x + y / 2) + 3 / 4 * (y * y) = 0) by lra.
  pose proof (Rle_0_sqr (x + y / 2)) as P. pose proof (Rle_0_sqr y) as Q. unfold Rsqr in P, Q.
  assert (Y : y * y = 0) by lra. assert (X : (x + y / 2) * (x + y / 2) = 0) by lra.
  apply Rmult_integral in Y, X. lra.
Qed.
Lemma cbrt_cube : forall x, ncbrt x * ncbrt x * ncbrt x = x.
Proof.
  assert (P : forall x, 0 < x -> Rpower x (/ 3) * Rpower x (/ 3) * Rpower x (/ 3) = x).
  { intros x Hx. rewrite <- !Rpower_plus. replace (/ 3 + / 3 + / 3) with 1 by lra. apply Rpower_1. exact Hx. }
  intro x. unfold ncbrt. destruct (Rlt_dec 0 x) as [H|H]; [apply P; exact H|].
  destruct (Rlt_dec x 0) as [L|L]; [|nra].
  pose proof (P (- x) ltac:(lra)) as Q. lra.
Qed.

Theorem C26_numbers_of_one : forall o x, (o = Urecip -> x <> 0) -> (o = Usqrt -> 0 <= x) ->
  gives1 o x (ufun o x) /\ (forall z, gives1 o x z -> z = ufun o x).
Proof.
  intros o x D S. split.
  - destruct o; cbn [ufun].
    + apply g_neg. ring.
    + destruct (Rle_dec 0 x) as [L|L].
      * rewrite Rabs_right by lra. apply g_abs_pos. exact L.
      * rewrite Rabs_left by lra. apply g_abs_neg; lra.
    + apply g_sqrt; [apply sqrt_pos|]. apply sqrt_sqrt. apply S. reflexivity.
    + apply g_square. reflexivity.
    + apply g_cbrt, cbrt_cube.
    + apply g_recip. apply Rinv_r, D. reflexivity.
  - intros z H. destruct H as [x z H|x H|x z N H|x z P H|x z H|x z H|x z H]; cbn [ufun].
    + lra.
    + rewrite Rabs_right by lra. reflexivity.
    + rewrite Rabs_left by exact N. lra.
    + subst x. rewrite sqrt_square by exact P. reflexivity.
    + exact H.
    + apply cube_inj. rewrite H. symmetry. apply cbrt_cube.
    + assert (x <> 0) by (apply D; reflexivity). apply (Rmult_eq_reg_l x); [|assumption]. rewrite H, Rinv_r by assumption. reflexivity.
Qed.

Theorem C26_comparisons_of_numbers : forall o x y, cfun o x y = true <-> says o x y.
Proof.
  intros o x y. destruct o; cbn [cfun says]; unfold Rltb, Rleb, Reqb;
    repeat match goal with |- context [if ?d then _ else _] => destruct d end; cbn [negb];
    split; intro H; try reflexivity; try discriminate; lra.
Qed.

Lemma map2_length : forall A B C (f : A -> B -> C) xs ys, length xs = length ys -> length (map2 f xs ys) = length xs.
Proof. intros A B C f. induction xs; destruct ys; cbn; intros; try discriminate; [reflexivity|]. rewrite IHxs by lia. reflexivity. Qed.
Lemma map2_entry : forall A B C (f : A -> B -> C) xs ys i, length xs = length ys -> (i < length xs)%nat ->
  exists x y, nth_error xs i = Some x /\ nth_error ys i = Some y /\ nth_error (map2 f xs ys) i = Some (f x y).
Proof.
  intros A B C f. induction xs; destruct ys; cbn; intros i L I; try discriminate; try lia.
  destruct i; cbn; [eauto|]. apply IHxs; lia.
Qed.
Lemma entry_at : forall l i, (i < length l)%nat -> entry l i = nth_error l i.
Proof. intros [|x [|y l]] i H; cbn in *; try lia; try reflexivity. assert (i = 0)%nat by lia. subst. reflexivity. Qed.

Lemma broadcast_entrywise : forall C (f : R -> R -> C) xs ys, entrywise f xs ys (broadcast f xs ys).
Proof.
  intros C f xs ys. unfold broadcast. destruct (Nat.eqb_spec (length xs) (length ys)) as [E|E].
  - apply (ew_fits f xs ys (length xs)); [left; reflexivity|left; lia|left; reflexivity|apply map2_length, E|].
    intros i I. destruct (map2_entry _ _ _ f xs ys i E I) as (x & y & X & Y & M). exists x, y.
    rewrite !entry_at by lia. auto.
  - destruct xs as [|x [|x' xs]].
    + destruct ys as [|y [|y' ys]]; cbn in E; try lia.
      * apply (ew_fits f _ _ 0%nat); [left; reflexivity|right; reflexivity|left; reflexivity|reflexivity|intros; lia].
      * apply ew_differ; cbn; lia.
    + apply (ew_fits f _ _ (length ys)); [right; reflexivity|left; reflexivity|right; reflexivity|apply map_length|].
      intros i I. destruct (nth_error ys i) as [y|] eqn:Y; [|apply nth_error_None in Y; lia].
      exists x, y. rewrite (entry_at ys) by lia. split; [reflexivity|]. split; [exact Y|]. apply map_nth_error. exact Y.
    + destruct ys as [|y [|y' ys]]; cbn in E.
      * apply ew_differ; cbn; lia.
      * apply (ew_fits f _ _ (length (x :: x' :: xs))); [left; reflexivity|right; reflexivity|left; reflexivity|apply map_length|].
        intros i I. destruct (nth_error (x :: x' :: xs) i) as [z|] eqn:Z; [|apply nth_error_None in Z; lia].
        exists z, y. rewrite (entry_at (x :: x' :: xs)) by lia. split; [exact Z|]. split; [reflexivity|].
        apply (map_nth_error (fun x0 => f x0 y)). exact Z.
      * apply ew_differ; cbn in *; lia.
Qed.
Lemma nth_ext_error : forall A (l m : list A), length l = length m -> (forall i, (i < length l)%nat -> nth_error l i = nth_error m i) -> l = m.
Proof.
  intros A l. induction l as [|x l IH]; intros [|y m] L H; cbn in L; try discriminate; [reflexivity|].
  pose proof (H 0%nat ltac:(cbn; lia)) as H0. cbn in H0. injection H0 as ->. f_equal. apply IH; [lia|].
  intros i I. apply (H (S i)). cbn. lia.
Qed.
Lemma entrywise_unique : forall C (f : R -> R -> C) xs ys r r', entrywise f xs ys r -> entrywise f xs ys r' -> r = r'.
Proof.
  intros C f xs ys r r' H H'. destruct H as [n vs A B D L E|A B D], H' as [n' vs' A' B' D' L' E'|A' B' D'].
  - assert (n = n') by (unfold size in *; lia). subst n'. f_equal. apply nth_ext_error; [lia|].
    intros i I. destruct (E i ltac:(lia)) as (x & y & X & Y & V). destruct (E' i ltac:(lia)) as (x' & y' & X' & Y' & V'). congruence.
  - unfold size in *. lia.
  - unfold size in *. lia.
  - reflexivity.
Qed.
(** Every outcome of an operation with respect to the numbers of entries. *)
Theorem C26_entrywise : forall C (f : R -> R -> C) xs ys r, broadcast f xs ys = r <-> entrywise f xs ys r.
Proof.
  intros C f xs ys r. split.
  - intros <-. apply broadcast_entrywise.
  - intro H. exact (entrywise_unique _ _ _ _ _ _ (broadcast_entrywise _ _ _ _) H).
Qed.

Example C26_numbers_case : gives2 Bmax 2 5 5 /\ gives2 Bdiv 6 3 2 /\ gives1 Usqrt 9 3 /\ gives1 Ucbrt (-8) (-2) /\ says Cge 2 2
  /\ entrywise Rplus [1; 2] [10] (Ok [1 + 10; 2 + 10]) /\ entrywise Rplus [1; 2] [1; 2; 3] (Err ValueError).
Proof.
  repeat split.
  - apply g_max_r; lra.
  - apply g_div; lra.
  - apply g_sqrt; lra.
  - apply g_cbrt; lra.
  - cbn. lra.
  - apply C26_entrywise. reflexivity.
  - apply ew_differ; cbn; lia.
Qed.

Print Assumptions C26_numbers.
Print Assumptions C26_numbers_of_one.
Print Assumptions C26_comparisons_of_numbers.
Print Assumptions C26_entrywise.

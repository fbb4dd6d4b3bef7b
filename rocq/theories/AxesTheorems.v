(** Theorems about functions applied over axes (C97). *)
From Coq Require Import List ZArith Bool Reals Lia Lra Sorted.
From Verif Require Import Base AxesModel AxesSpec AxesProofs.
Import ListNotations.
Open Scope R_scope.

(** [np.apply_over_axes(np.sum, a, axes)] of an array with units sums over each axis
    counted among the axes that the sums before it have left, keeps class and
    attributes, and raises an index error exactly if one of them does not exist. *)
Theorem C97_sums : forall A (x : nd A) axes, united x -> axes <> [] ->
  outcome x axes (apply_over_axes np_sum x (Many axes)).
Proof. exact apply_sums. Qed.

(** Which axes are left is determined by the list. *)
Theorem C97_left_unique : forall n axes l1 l2, left_after n axes l1 -> left_after n axes l2 -> l1 = l2.
Proof. intros n axes l1 l2 H1 H2. exact (left_unique n axes l1 H1 l2 H2). Qed.

(** What numpy computes for numbers without units: the sums over the axes named, in any
    order, with repetitions and counted from the end or not; they stay with length one. *)
Theorem C97_numpy : forall A (x : nd A) axes ks, own x = Numpy ->
  Forall2 (meant (length (shape x))) axes ks ->
  exists r, apply_over_axes np_sum x (Many axes) = Ok r /\ kept_sums x r ks.
Proof.
  intros A x axes ks O F. unfold apply_over_axes, numpy_over. rewrite O.
  exact (numpy_loop_sums A axes ks x x [] F (kept_sums_refl A x)).
Qed.

(** For axes in strictly decreasing order the two agree in the numbers. *)
Theorem C97_decreasing : forall A (x : nd A) axes, united x -> axes <> [] ->
  StronglySorted gt axes -> (forall i, In i axes -> (i < length (shape x))%nat) ->
  exists r, apply_over_axes np_sum x (Many (map Z.of_nat axes)) = Ok r
  /\ own r = own x /\ shape r = along (kept (length (shape x)) axes) (shape x)
  /\ forall idx, In idx (indices (shape r)) -> at_ r idx = summed x (kept (length (shape x)) axes) idx.
Proof.
  intros A x axes U NE S B. pose proof (decreasing_left _ axes B S) as L.
  assert (NE2 : map Z.of_nat axes <> []) by (destruct axes; [congruence|discriminate]).
  pose proof (apply_sums A x _ U NE2) as H. destruct (apply_over_axes np_sum x _) as [r|e]; cbn [outcome] in H.
  - destruct H as (l & L2 & (G1 & G2 & G3)). pose proof (left_unique _ _ _ L _ L2) as <-. exists r. auto.
  - destruct H as [_ N]. exfalso. exact (N _ L).
Qed.

(** Hence, for such axes, each number of the result is the one numpy gives for the same
    numbers without units, at any index that agrees on the remaining axes. *)
Theorem C97_decreasing_numpy : forall A (x : nd A) axes r z, united x -> axes <> [] ->
  StronglySorted gt axes -> (forall i, In i axes -> (i < length (shape x))%nat) ->
  apply_over_axes np_sum x (Many (map Z.of_nat axes)) = Ok r ->
  apply_over_axes np_sum (mknd (@Numpy A) (shape x) (at_ x)) (Many (map Z.of_nat axes)) = Ok z ->
  forall idx, In idx (indices (shape z)) ->
  In (along (kept (length (shape x)) axes) idx) (indices (shape r))
  /\ at_ r (along (kept (length (shape x)) axes) idx) = at_ z idx.
Proof.
  intros A x axes r z U NE S B Er Ez idx I.
  destruct (C97_decreasing A x axes U NE S B) as (r' & Er' & _ & SH & V). rewrite Er in Er'. injection Er' as <-.
  destruct (C97_numpy A (mknd Numpy (shape x) (at_ x)) (map Z.of_nat axes) axes eq_refl) as (z' & Ez' & (_ & SZ & VZ)).
  { cbn [shape]. clear - B. induction axes as [|i axes IH]; cbn [map]; constructor.
    - split; [apply B; now left|left; reflexivity].
    - apply IH. intros; apply B; now right. }
  rewrite Ez in Ez'. injection Ez' as <-. cbn [shape] in *.
  assert (J : In (along (kept (length (shape x)) axes) idx) (indices (shape r))).
  { rewrite SH. rewrite SZ in I. apply in_indices. apply in_indices in I.
    assert (Q : forall i, In i (kept (length (shape x)) axes) -> (nth i idx O < nth i (shape x) O)%nat).
    { intros i K. apply in_kept in K. destruct K as [K N].
      assert (X : (nth i idx O < nth i (flat (length (shape x)) axes (shape x)) O)%nat).
      { assert (LL : (i < length idx)%nat) by (apply Forall2_length in I; rewrite flat_length in I; lia).
        clear - I LL. revert i LL. induction I as [|a b l l' H F IH]; intros [|i] LL; cbn in *; try lia. apply IH. lia. }
      rewrite nth_flat in X by exact K. destruct (in_dec Nat.eq_dec i axes); [tauto|exact X]. }
    revert Q. generalize (kept (length (shape x)) axes) as l. induction l as [|i l IH]; intros Q; cbn [along map]; constructor.
    - apply Q. now left.
    - apply IH. intros; apply Q; now right. }
  split; [exact J|]. rewrite (V _ J), (VZ _ I). reflexivity.
Qed.

(** The axes [0, 1] of an array with three axes: the second sum is over the third axis,
    and the result has other numbers than numpy's. *)
Definition rows : nd unit := mknd (Cosmo tt) [1; 1; 2]%nat (fun idx => INR (nth 2 idx O)).
Theorem C97_order_refuted : exists r z : nd unit,
  apply_over_axes np_sum rows (Many [0; 1]%Z) = Ok r
  /\ apply_over_axes np_sum (mknd Numpy (shape rows) (at_ rows)) (Many [0; 1]%Z) = Ok z
  /\ shape r = [1]%nat /\ shape z = [1; 1; 2]%nat /\ at_ r [0]%nat = 1 /\ at_ z [0; 0; 0]%nat = 0 /\ at_ z [0; 0; 1]%nat = 1
  /\ left_after 3 [0; 1]%Z [1]%nat.
Proof.
  eexists; eexists. split; [reflexivity|]. split; [reflexivity|]. split; [reflexivity|]. split; [reflexivity|].
  split; [simpl; lra|]. split; [simpl; lra|]. split; [simpl; lra|].
  apply (la_next 3 [0%Z] 1%Z [1%nat] 2%nat []); [|left; reflexivity].
  apply (la_next 3 [] 0%Z [] 0%nat [1; 2]%nat); [|left; reflexivity]. exact (la_none 3).
Qed.

(** A sum over all axes in increasing order fails for every array with more than one
    axis (numpy accepts it). *)
Theorem C97_all_axes_refuted : forall A (x : nd A) n, united x -> length (shape x) = n -> (1 < n)%nat ->
  apply_over_axes np_sum x (Many (map Z.of_nat (seq 0 n))) = Err IndexError.
Proof.
  intros A x n U L N. destruct n as [|n]; [lia|].
  pose proof (apply_sums A x (map Z.of_nat (seq 0 (S n))) U) as H.
  destruct (apply_over_axes np_sum x _) as [r|e]; cbn [outcome] in H.
  - exfalso. destruct H as (l & La & _); [discriminate|]. rewrite L in La. rewrite seq_S, map_app in La. cbn [map Nat.add] in La.
    inversion La as [E|axes i b y a H' J E|axes i H' J E].
    + destruct (map Z.of_nat (seq 0 n)); discriminate.
    + apply app_inj_tail in E. destruct E as [-> ->]. apply left_length in H'. rewrite map_length, seq_length, app_length in H'.
      cbn [length] in H'. lia.
    + apply app_inj_tail in E. destruct E as [-> ->]. apply left_length in H'. rewrite map_length, seq_length in H'.
      cbn [length] in H'. lia.
  - destruct H as [-> _]; [discriminate|reflexivity].
Qed.

(** One integer is a type error and no axes an index error for arrays with units; numpy
    takes both. *)
Theorem C97_arguments : forall A func (x : nd A), united x ->
  (forall i, apply_over_axes func x (One i) = Err TypeError)
  /\ apply_over_axes func x (Many []) = Err IndexError
  /\ (forall y : nd A, own y = Numpy -> apply_over_axes func y (Many []) = Ok y
      /\ forall i, apply_over_axes func y (One i) = apply_over_axes func y (Many [i])).
Proof.
  intros A func x U. unfold united in U. unfold apply_over_axes. split; [|split].
  - intros i. destruct (own x); [reflexivity|reflexivity|congruence].
  - destruct (own x) eqn:O; [| |congruence]; cbn [over_list]; rewrite O; reflexivity.
  - intros y ->. split; reflexivity.
Qed.

(** Any function is called with the axes in turn, each time on the result of the call
    before, until a result has no units: then numpy's function takes over. *)
Theorem C97_calls : forall A func (x : nd A) i rest, united x ->
  apply_over_axes func x (Many (i :: rest)) =
  match func x i with
  | Err e => Err e
  | Ok r => match rest with [] => Ok r | _ => apply_over_axes func r (Many rest) end
  end.
Proof.
  intros A func x i rest U. unfold united in U. unfold apply_over_axes.
  assert (E : over_list func x (i :: rest) = do r <- func x i; match rest with [] => Ok r | _ => over_list func r rest end).
  { cbn [over_list]. destruct (own x); [reflexivity|reflexivity|congruence]. }
  assert (F : match func x i with Err e => Err e | Ok r => match rest with [] => Ok r | _ => over_list func r rest end end
     = match func x i with Err e => Err e | Ok r => match rest with [] => Ok r | _ =>
         match own r with Numpy => numpy_over func r (Many rest) | _ => over_list func r rest end end end).
  { destruct (func x i) as [r|e]; [|reflexivity]. destruct rest as [|j rest]; [reflexivity|]. cbn [over_list].
    destruct (own r); reflexivity. }
  destruct (own x); [| |congruence]; rewrite E; unfold bind; rewrite F; destruct (func x i) as [r|e]; try reflexivity;
    destruct rest as [|j rest]; try reflexivity; destruct (own r); reflexivity.
Qed.

(** A function that keeps the number of axes and the class, and treats axes counted from
    the end like the others, gives what numpy's function would give. *)
Theorem C97_axes_kept : forall A func (x : nd A) axes, united x -> axes <> [] ->
  Forall (fun i => - ndim x <= i)%Z axes ->
  (forall y i r, func y i = Ok r -> ndim r = ndim y /\ (own y <> Numpy -> own r <> Numpy)) ->
  (forall y i, (- ndim y <= i < 0)%Z -> func y i = func y (ndim y + i)%Z) ->
  apply_over_axes func x (Many axes) = numpy_over func x (Many axes).
Proof.
  intros A func x axes U NE R K W. unfold numpy_over.
  assert (G : forall n axes x, united x -> axes <> [] -> ndim x = n -> Forall (fun i => - n <= i)%Z axes ->
          apply_over_axes func x (Many axes) = numpy_loop func n axes x).
  { clear x axes U NE R. intros n axes. induction axes as [|i axes IH]; intros x U NE N R; [congruence|].
    apply Forall_cons_iff in R. destruct R as [R1 R2]. rewrite C97_calls by exact U. cbn [numpy_loop].
    assert (E : func x (if (i <? 0)%Z then (n + i)%Z else i) = func x i).
    { destruct (i <? 0)%Z eqn:L; [|reflexivity]. apply Z.ltb_lt in L. rewrite (W x i), N; [reflexivity|lia]. }
    cbn zeta. rewrite E. destruct (func x i) as [r|e] eqn:F; cbn [bind]; [|reflexivity].
    destruct (K x i r F) as [K1 K2]. rewrite K1, Z.eqb_refl. destruct axes as [|j axes]; [reflexivity|].
    apply IH; [exact (K2 U)|discriminate|congruence|exact R2]. }
  apply G; [exact U|exact NE|reflexivity|exact R].
Qed.
(** Cumulative sums are such a function. *)
Theorem C97_cumulative : forall A (x : nd A) axes, united x -> axes <> [] ->
  Forall (fun i => - ndim x <= i)%Z axes ->
  apply_over_axes np_cumsum x (Many axes) = numpy_over np_cumsum x (Many axes).
Proof.
  intros A x axes U NE R. apply C97_axes_kept; [exact U|exact NE|exact R| |].
  - intros y i r. unfold np_cumsum. cbn zeta. destruct (_ || _); [discriminate|]. intros E. injection E as <-.
    split; [reflexivity|auto].
  - intros y i L. unfold np_cumsum. cbn zeta. replace (i <? 0)%Z with true by (symmetry; apply Z.ltb_lt; lia).
    assert (E : (ndim y + i <? 0)%Z = false) by (apply Z.ltb_ge; lia). rewrite !E. cbv iota. rewrite ?E. reflexivity.
Qed.
(** Beyond the first axis they differ: numpy adds the number of axes once more. *)
(** Running sums: which axes there are, and the entries one after the other. *)
Theorem C97_running : forall A (x : nd A) i,
  ((i < - ndim x \/ ndim x <= i)%Z -> np_cumsum x i = Err IndexError)
  /\ forall k, meant (length (shape x)) i k -> exists r, np_cumsum x i = Ok r /\ own r = own x /\ shape r = shape x
     /\ forall idx m, (k < length idx)%nat ->
        at_ r (upd k 0%nat idx) = at_ x (upd k 0%nat idx)
        /\ at_ r (upd k (S m) idx) = at_ r (upd k m idx) + at_ x (upd k (S m) idx).
Proof.
  intros A x i. split.
  - intros H. unfold np_cumsum. cbn zeta. destruct (i <? 0)%Z eqn:E.
    + apply Z.ltb_lt in E. destruct H as [H|H].
      * replace (ndim x + i <? 0)%Z with true by (symmetry; apply Z.ltb_lt; lia). reflexivity.
      * unfold ndim, zlen in *. lia.
    + apply Z.ltb_ge in E. destruct H as [H|H]; [unfold ndim, zlen in *; lia|].
      replace (ndim x <=? i)%Z with true by (symmetry; apply Z.leb_le; lia). rewrite orb_true_r. reflexivity.
  - intros k M. unfold np_cumsum. cbn zeta.
    assert (X : (if (i <? 0)%Z then ndim x + i else i)%Z = Z.of_nat k /\ (Z.of_nat k < ndim x)%Z).
    { unfold ndim, zlen, meant in *. destruct (i <? 0)%Z eqn:E; [apply Z.ltb_lt in E|apply Z.ltb_ge in E]; lia. }
    destruct X as [-> L]. replace (Z.of_nat k <? 0)%Z with false by (symmetry; apply Z.ltb_ge; lia).
    replace (ndim x <=? Z.of_nat k)%Z with false by (symmetry; apply Z.leb_gt; lia). cbn [orb]. rewrite Nat2Z.id.
    eexists. split; [reflexivity|]. split; [reflexivity|]. split; [reflexivity|]. intros idx m K. cbn [at_].
    assert (U : forall (a b : nat) l, upd k a (upd k b l) = upd k a l).
    { intros a b. generalize k. induction k0 as [|q IH]; intros [|h t]; cbn; auto. now rewrite IH. }
    assert (F : forall n (f g : nat -> R), (forall j, f j = g j) -> sum_to n f = sum_to n g).
    { induction n as [|n IH]; intros f g H; cbn; [reflexivity|]. now rewrite (IH f g H), H. }
    split.
    + rewrite nth_upd_same by exact K. cbn [sum_to]. rewrite U. lra.
    + rewrite !nth_upd_same by exact K.
      rewrite (F _ _ (fun j => at_ x (upd k j idx)) (fun j => f_equal (at_ x) (U j (S m) idx))).
      rewrite (F _ (fun j => at_ x (upd k j (upd k m idx))) (fun j => at_ x (upd k j idx)) (fun j => f_equal (at_ x) (U j m idx))).
      reflexivity.
Qed.

Theorem C97_beyond_refuted : exists (x y : nd unit), united x
  /\ apply_over_axes np_cumsum x (Many [-3]%Z) = Err IndexError
  /\ numpy_over np_cumsum x (Many [-3]%Z) = Ok y.
Proof.
  exists (mknd (Cosmo tt) [1; 1]%nat (fun _ => 1)). eexists. split; [discriminate|]. split; reflexivity.
Qed.

Example C97_example :
  united rows /\ left_after 3 [1; 0]%Z [2]%nat /\ StronglySorted gt [1; 0]%nat
  /\ summed rows [2]%nat [1]%nat = 1 /\ meant 3 (-1)%Z 2.
Proof.
  split; [discriminate|]. split.
  { apply (la_next 3 [1%Z] 0%Z [] 0%nat [2]%nat); [|left; reflexivity].
    apply (la_next 3 [] 1%Z [0%nat] 1%nat [2]%nat); [|left; reflexivity]. exact (la_none 3). }
  split; [repeat constructor|]. split; [cbn; lra|]. split; [lia|right; reflexivity].
Qed.

Print Assumptions C97_sums.
Print Assumptions C97_left_unique.
Print Assumptions C97_numpy.
Print Assumptions C97_decreasing.
Print Assumptions C97_decreasing_numpy.
Print Assumptions C97_order_refuted.
Print Assumptions C97_all_axes_refuted.
Print Assumptions C97_arguments.
Print Assumptions C97_calls.
Print Assumptions C97_axes_kept.
Print Assumptions C97_cumulative.
Print Assumptions C97_beyond_refuted.
Print Assumptions C97_running.

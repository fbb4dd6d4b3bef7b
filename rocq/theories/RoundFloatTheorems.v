(** C112: indices in floating point. *)
From Coq Require Import List ZArith QArith Lia Lra Bool Floats.SpecFloat Reals.
From Flocq Require Import Core.
From Verif Require Import Base RoundModel RoundSpec RoundTheorems RoundFloatModel.
Import ListNotations.
Open Scope R_scope.

#[local] Instance prec53 : Prec_gt_0 53. Proof. reflexivity. Qed.
#[local] Instance prec24 : Prec_gt_0 24. Proof. reflexivity. Qed.

Notation format := (generic_format radix2 (FLX_exp 53)).

Lemma rnd_format x : format (rnd 53 x).
Proof. apply generic_format_round; typeclasses eauto. Qed.
Lemma rnd_le x y : x <= y -> rnd 53 x <= rnd 53 y.
Proof. apply round_le; typeclasses eauto. Qed.
Lemma rnd_id x : format x -> rnd 53 x = x.
Proof. apply round_generic; typeclasses eauto. Qed.
Lemma int_format prec n : (0 < prec)%Z -> (Z.abs n < 2 ^ prec)%Z -> generic_format radix2 (FLX_exp prec) (IZR n).
Proof.
  intros P H. assert (Prec_gt_0 prec) by exact P. apply generic_format_FLX. exists (Float radix2 n 0).
  - unfold F2R. cbn. lra.
  - exact H.
Qed.
Lemma rnd_0 : rnd 53 0 = 0. Proof. apply round_0. typeclasses eauto. Qed.
Lemma rnd_1 : rnd 53 1 = 1. Proof. apply rnd_id. apply (int_format 53 1); lia. Qed.
Lemma single_int n : (Z.abs n < 2 ^ 24)%Z -> rnd 24 (IZR n) = IZR n.
Proof. intro H. apply round_generic; [typeclasses eauto|]. apply int_format; [lia|exact H]. Qed.

Lemma below_one s : format s -> s < 1 -> s <= 1 - bpow radix2 (-53).
Proof.
  intros F H. assert (G : format 1) by (apply (int_format 53 1); lia).
  pose proof (pred_ge_gt radix2 (FLX_exp 53) s 1 F G H) as P.
  change 1 with (bpow radix2 0) in P. rewrite pred_bpow in P. exact P.
Qed.

Lemma rnd_error x : 0 <= x -> Rabs (rnd 53 x - x) <= x * bpow radix2 (-53).
Proof.
  intro H. eapply Rle_trans; [apply error_le_half_ulp; typeclasses eauto|].
  pose proof (ulp_FLX_le radix2 53 x) as U. rewrite (Rabs_pos_eq x H) in U.
  change (1 - 53)%Z with (1 + -53)%Z in U. rewrite bpow_plus in U. change (bpow radix2 1) with 2 in U. lra.
Qed.

(** A product with a number below one stays below the other factor. *)
Lemma product_below n s : (1 <= n)%Z -> format s -> 0 <= s < 1 -> 0 <= rnd 53 (s * IZR n) < IZR n.
Proof.
  intros N F (S0 & S1). pose proof (IZR_le _ _ N) as N1. assert (P : 0 <= s * IZR n) by nra. split.
  - rewrite <- rnd_0. apply rnd_le. exact P.
  - pose proof (rnd_error _ P) as E. pose proof (below_one s F S1) as B.
    assert (b : 0 < bpow radix2 (-53)) by apply bpow_gt_0.
    apply Rabs_le_inv in E. destruct (Rlt_dec (rnd 53 (s * IZR n)) (IZR n)) as [H|H]; [exact H|]. exfalso.
    assert (IZR n * bpow radix2 (-53) <= IZR n - s * IZR n) by nra.
    assert (s * IZR n * bpow radix2 (-53) < IZR n * bpow radix2 (-53)) by (apply Rmult_lt_compat_r; nra). lra.
Qed.

Lemma trunc_inside n x : 0 <= x < IZR n -> (0 <= Ztrunc x < n)%Z.
Proof.
  intros (H0 & H1). rewrite Ztrunc_floor by exact H0. split; [apply Zfloor_lub; exact H0|].
  apply lt_IZR. eapply Rle_lt_trans; [apply Zfloor_lb|exact H1].
Qed.

(** * Deposition *)

(** What a position becomes: the remainder, times the inverse of the folded box. *)
Definition folded_box (box fold : R) : R := rnd 53 (box / fold).
Definition scaled (x b : R) : R := rnd 53 (mod_r x b * rnd 53 (1 / b)).

Lemma deposit_cell_rounded n fold x box : (Z.abs n < 2 ^ 24)%Z ->
  deposit_cell rounded (single rounded (of_int rounded n)) fold x box
  = Ztrunc (rnd 53 (scaled x (folded_box box fold) * IZR n)).
Proof.
  intro H. unfold deposit_cell, one, scaled, folded_box. cbn [rounded single of_int div mul modulo int32 lit].
  unfold rnd2. rewrite (single_int n H). replace (rnd 53 (Q2R 1)) with 1; [reflexivity|].
  replace (Q2R 1) with 1 by (unfold Q2R; cbn; lra). symmetry. apply rnd_1.
Qed.

(** The cell exists exactly if the scaled position is below one. *)
Theorem C112_deposit_iff : forall n fold x box, (1 <= n < 2 ^ 24)%Z -> 0 <= scaled x (folded_box box fold) ->
  ((0 <= deposit_cell rounded (single rounded (of_int rounded n)) fold x box < n)%Z <-> scaled x (folded_box box fold) < 1).
Proof.
  intros n fold x box N S. rewrite deposit_cell_rounded by lia. set (s := scaled _ _) in *.
  assert (F : format s) by apply rnd_format. split.
  - intros (_ & H). destruct (Rlt_dec s 1) as [L|L]; [exact L|]. exfalso.
    assert (IZR n <= rnd 53 (s * IZR n)).
    { rewrite <- (rnd_id (IZR n)) at 1 by (apply int_format; lia). apply rnd_le.
      pose proof (IZR_le 1 n (proj1 N)). nra. }
    pose proof (IZR_le 1 n (proj1 N)). rewrite Ztrunc_floor in H by lra.
    assert (n <= Zfloor (rnd 53 (s * IZR n)))%Z by (apply Zfloor_lub; assumption). lia.
  - intro L. apply trunc_inside. apply product_below; [lia|exact F|lra].
Qed.

Lemma mod_r_same x b : 0 <= x < b -> mod_r x b = x.
Proof.
  intros (H0 & H1). unfold mod_r, rem_toward.
  assert (E : Ztrunc (x / b) = 0%Z).
  { assert (0 <= x / b < IZR 1). { split; [apply Rmult_le_pos; [exact H0|left; apply Rinv_0_lt_compat; lra]|].
      apply Rmult_lt_reg_r with b; [lra|]. unfold Rdiv. rewrite Rmult_assoc, Rinv_l by lra. cbn. lra. }
    apply trunc_inside in H. lia. }
  rewrite E. rewrite Rmult_0_r, Rminus_0_r. destruct (Rle_dec 0 (x * b)) as [L|L]; [reflexivity|]. exfalso. apply L. nra.
Qed.

(** Positions in the box are safe unless they are within four units in the last place of its edge. *)
Theorem C112_deposit_inside : forall n fold x box, (1 <= n < 2 ^ 24)%Z ->
  let b := folded_box box fold in
  0 <= x <= b * (1 - / 2 ^ 51) -> 0 < b ->
  (0 <= deposit_cell rounded (single rounded (of_int rounded n)) fold x box < n)%Z.
Proof.
  intros n fold x box N b (X0 & X1) B.
  assert (T : / 2 ^ 51 = 4 * bpow radix2 (-53)).
  { change (bpow radix2 (-53)) with (/ IZR (2 ^ 53)). replace (2 ^ 51) with (IZR (2 ^ 51)) by (symmetry; exact (pow_IZR 2 51)).
    replace (IZR (2 ^ 53)) with (4 * IZR (2 ^ 51)) by (rewrite <- mult_IZR; reflexivity). field. apply not_0_IZR. discriminate. }
  set (u := bpow radix2 (-53)) in *. assert (U : 0 < u) by apply bpow_gt_0.
  assert (U1 : u <= / 8). { unfold u. change (/ 8) with (bpow radix2 (-3)). apply bpow_le. lia. }
  assert (E : mod_r x b = x) by (apply mod_r_same; nra).
  assert (I0 : 0 <= 1 / b) by (apply Rmult_le_pos; [lra|left; apply Rinv_0_lt_compat; exact B]).
  pose proof (rnd_error (1 / b) I0) as R. fold u in R. apply Rabs_le_inv in R.
  assert (Q : b * (1 / b) = 1) by (field; lra).
  assert (P0 : 0 <= x * rnd 53 (1 / b)).
  { apply Rmult_le_pos; [exact X0|]. rewrite <- rnd_0. apply rnd_le. exact I0. }
  assert (P1 : x * rnd 53 (1 / b) <= 1 - 2 * u).
  { apply Rle_trans with (b * (1 - 4 * u) * (1 / b * (1 + u))).
    - apply Rmult_le_compat; [exact X0|rewrite <- rnd_0; apply rnd_le; exact I0|rewrite T in X1; exact X1|lra].
    - replace (b * (1 - 4 * u) * (1 / b * (1 + u))) with ((b * (1 / b)) * ((1 - 4 * u) * (1 + u))) by ring. rewrite Q. nra. }
  assert (S : 0 <= scaled x b < 1).
  { unfold scaled. rewrite E. split; [rewrite <- rnd_0; apply rnd_le; exact P0|].
    assert (F : format (1 - u)).
    { replace (1 - u) with (pred radix2 (FLX_exp 53) 1); [apply generic_format_pred; [typeclasses eauto|apply (int_format 53 1); lia]|].
      change 1 with (bpow radix2 0) at 1. rewrite pred_bpow. reflexivity. }
    apply Rle_lt_trans with (1 - u); [|lra]. rewrite <- (rnd_id (1 - u) F). apply rnd_le. lra. }
  apply (C112_deposit_iff n fold x box N); [apply S|apply S].
Qed.

(** * Histograms *)

(** Without periodic copies every particle of the unit square is counted once, in a pixel that exists. *)
Theorem C112_histogram : forall n x y z m h, (1 <= n)%Z -> format x -> format y -> 0 <= x < 1 -> 0 <= y < 1 ->
  exists i j, map fst (histogram_part rounded n 0 0 (@mk_rpart rounded x y z m h)) = [[i; j]] /\ exists_in [n; n] [i; j].
Proof.
  intros n x y z m h N Fx Fy X Y.
  assert (Sh : shifts rounded 0 = [0%Z]).
  { unfold shifts, zero. cbn [rounded equal lit]. replace (Q2R 0) with 0 by (unfold Q2R; cbn; lra). rewrite rnd_0.
    destruct (Req_EM_T 0 0) as [_|C]; [reflexivity|congruence]. }
  assert (Cell : forall v, format v -> 0 <= v < 1 ->
    (0 <= cell_of rounded (double rounded (of_int rounded n)) (shifted rounded v 0 0%R) < n)%Z).
  { intros v Fv V. unfold cell_of, shifted. cbn [rounded double of_int mul add floor int32]. unfold rnd2.
    rewrite Rmult_0_l, rnd_0, Rplus_0_r, (rnd_id v Fv), Ztrunc_IZR, Rmult_comm.
    destruct (product_below n v N Fv V) as (P0 & P1). split; [apply Zfloor_lub; exact P0|].
    apply lt_IZR. eapply Rle_lt_trans; [apply Zfloor_lb|exact P1]. }
  pose proof (Cell x Fx X) as Cx. pose proof (Cell y Fy Y) as Cy.
  unfold histogram_part, copies2. change (num rounded) with R in *. rewrite Sh. cbn [flat_map r_x r_y r_m app].
  unfold histogram_at. cbv zeta.
  set (i := cell_of rounded _ (shifted rounded x 0%Z 0)) in *. set (j := cell_of rounded _ (shifted rounded y 0%Z 0)) in *.
  exists i, j. split; [|apply pair_exists; assumption].
  destruct (Z.ltb_spec i 0); [lia|]. destruct (Z.ltb_spec (n - 1) i); [lia|].
  destruct (Z.ltb_spec j 0); [lia|]. destruct (Z.ltb_spec (n - 1) j); [lia|]. reflexivity.
Qed.

(** * Colour maps *)

Theorem C112_lookup : forall n v, (1 <= n < 2 ^ 24)%Z -> (0 <= lookup_index rounded n v < n)%Z.
Proof.
  intros n v N. unfold lookup_index, zero, one. cbn [rounded single of_int mul larger smaller lit int32]. unfold rnd2.
  replace (Q2R 1) with 1 by (unfold Q2R; cbn; lra). replace (Q2R 0) with 0 by (unfold Q2R; cbn; lra).
  rewrite rnd_0, rnd_1, single_int by lia. set (c := Rmin (Rmax v 0) 1).
  assert (C : 0 <= c <= 1). { unfold c. split; [apply Rmin_glb; [apply Rmax_r|lra]|apply Rmin_r]. }
  pose proof (IZR_le 0 (n - 1) ltac:(lia)) as P. apply trunc_inside. split.
  - rewrite <- rnd_0. apply rnd_le. nra.
  - apply Rle_lt_trans with (IZR (n - 1)); [|apply IZR_lt; lia].
    rewrite <- (rnd_id (IZR (n - 1))) at 2 by (apply int_format; lia). apply rnd_le. nra.
Qed.

(** * The operations *)

(** The remainder is exact for positions that are not negative; for the others a sum is rounded. *)
Theorem C112_remainder : forall x b, 0 < b ->
  (0 <= x -> mod_r x b = x - b * IZR (Zfloor (x / b)))
  /\ (x < 0 -> x - b * IZR (Zceil (x / b)) < 0 -> mod_r x b = rnd 53 (x - b * IZR (Zceil (x / b)) + b))
  /\ (x < 0 -> x - b * IZR (Zceil (x / b)) = 0 -> mod_r x b = 0).
Proof.
  intros x b B. unfold mod_r, rem_toward. assert (I : 0 < / b) by (apply Rinv_0_lt_compat; exact B).
  assert (Q : x = b * (x / b)) by (field; lra). split; [|split].
  - intro X. rewrite Ztrunc_floor by (apply Rmult_le_pos; lra). destruct (Rle_dec 0 _) as [L|L]; [reflexivity|]. exfalso. apply L.
    pose proof (Zfloor_lb (x / b)) as F. apply Rmult_le_pos; [|lra]. nra.
  - intros X N. rewrite Ztrunc_ceil by (unfold Rdiv; nra). destruct (Rle_dec 0 _) as [L|L]; [exfalso; nra|reflexivity].
  - intros X E. rewrite Ztrunc_ceil by (unfold Rdiv; nra). rewrite E. destruct (Rle_dec 0 _) as [L|L]; [reflexivity|]. exfalso. apply L. lra.
Qed.

(** The other operations on rounded numbers. *)
Theorem C112_rounded : forall x y,
  (less rounded x y = true <-> x < y) /\ (less_eq rounded x y = true <-> x <= y) /\ (equal rounded x y = true <-> x = y)
  /\ larger rounded x y = Rmax x y /\ smaller rounded x y = Rmin x y
  /\ (IZR (Zfloor x) = floor rounded x /\ IZR (Zceil x) = ceil rounded x)
  /\ (forall n, of_int rounded n = IZR n) /\ int32 rounded x = Ztrunc x /\ int rounded x = Ztrunc x.
Proof.
  intros x y. cbn [rounded less less_eq equal larger smaller floor ceil of_int int32 int].
  split; [destruct (Rlt_dec x y); split; intro; try assumption; try reflexivity; try discriminate; contradiction|].
  split; [destruct (Rle_dec x y); split; intro; try assumption; try reflexivity; try discriminate; contradiction|].
  split; [destruct (Req_EM_T x y); split; intro; try assumption; try reflexivity; try discriminate; contradiction|].
  repeat split.
Qed.

(** Double precision: the operations that are not those of the standard library, on some numbers. *)
Definition nan : spec_float := S754_nan.
Definition infinite : spec_float := S754_infinity false.
Theorem C112_operations :
  map (floor_sf false) [dbl (-3) (-1); dbl 3 (-1); dbl 1 (-2); dbl (-1) (-2); dbl 5 3; dbl 1 0; nan; infinite; S754_zero true]
  = [dbl (-2) 0; dbl 1 0; dbl 0 0; dbl (-1) 0; dbl 40 0; dbl 1 0; nan; infinite; S754_zero true]
  /\ map (floor_sf true) [dbl (-3) (-1); dbl 3 (-1); dbl 1 (-2); dbl (-1) (-2); dbl 5 3; dbl (2 ^ 52 + 1) (-20)]
     = [dbl (-1) 0; dbl 2 0; dbl 1 0; S754_zero true; dbl 40 0; dbl (2 ^ 32 + 1) 0]
  /\ map (floor ieee) [dbl 3 (-1); dbl (-3) (-1)] = [dbl 1 0; dbl (-2) 0]
  /\ map (ceil ieee) [dbl 3 (-1); dbl (-3) (-1)] = [dbl 2 0; dbl (-1) 0]
  /\ map (to_int 32) [dbl 7 (-2); dbl (-7) (-2); dbl 0 0; dbl 3 40; dbl (2 ^ 31) 0; dbl (2 ^ 31 - 1) 0; dbl (- 2 ^ 31) 0; dbl (-3) 40; nan; infinite; dbl 3 2]
     = [1; -1; 0; - 2 ^ 31; - 2 ^ 31; 2 ^ 31 - 1; - 2 ^ 31; - 2 ^ 31; - 2 ^ 31; - 2 ^ 31; 12]%Z
  /\ map (to_int 64) [dbl (2 ^ 62) 0; dbl (2 ^ 63) 0; dbl 3 40] = [2 ^ 62; - 2 ^ 63; 3 * 2 ^ 40]%Z
  /\ (int32 ieee (dbl 1 31), int ieee (dbl 1 31)) = (- 2 ^ 31, 2 ^ 31)%Z
  /\ map (fun t => py_mod (fst t) (snd t))
        [(dbl 7 0, dbl 2 0); (dbl (-7) 0, dbl 2 0); (dbl 7 0, dbl (-2) 0); (dbl (-7) 0, dbl (-2) 0); (dbl 15 (-1), dbl 3 1); (dbl 3 1, dbl 15 (-3));
         (dbl 4 0, dbl 2 0); (dbl (-4) 0, dbl 2 0); (dbl 4 0, dbl (-2) 0); (S754_zero true, dbl 2 0); (dbl 7 0, infinite); (S754_zero false, infinite);
         (nan, dbl 1 0); (dbl 1 0, nan); (infinite, dbl 1 0); (dbl 1 0, dbl 0 0)]
     = [dbl 1 0; dbl 1 0; dbl (-1) 0; dbl (-1) 0; dbl 3 (-1); dbl 3 (-3); S754_zero false; S754_zero false; S754_zero true; S754_zero false;
        dbl 7 0; S754_zero false; nan; nan; nan; nan]
  /\ map (fun t => (larger ieee (fst t) (snd t), smaller ieee (fst t) (snd t)))
        [(dbl 1 0, dbl 2 0); (dbl 2 0, dbl 1 0); (nan, dbl 1 0); (dbl 1 0, nan)]
     = [(dbl 2 0, dbl 1 0); (dbl 2 0, dbl 1 0); (nan, nan); (dbl 1 0, dbl 1 0)]
  /\ (dbl 0 0, dbl 3 0, dbl (-1) 0, dbl (2 ^ 53 + 1) 0, dbl 1 2000)
     = (S754_zero false, S754_finite false 6755399441055744 (-51), S754_finite true 4503599627370496 (-52), S754_finite false 4503599627370496 1, infinite)
  /\ (single ieee (dbl (2 ^ 24 + 1) 0), single ieee nan, double ieee (dbl (2 ^ 24 + 1) 0), lit ieee (1 # 10), of_int ieee (-3))
     = (dbl 1 24, nan, dbl (2 ^ 24 + 1) 0, dbl 3602879701896397 (-55), dbl (-3) 0)
  /\ map (single ieee) [dbl (- (2 ^ 24 + 3)) 0; dbl 3 0; dbl 1 200; dbl (-1) (-200); dbl (2 ^ 24 + 1) (-173); S754_zero true]
     = [dbl (- (2 ^ 24 + 4)) 0; dbl 3 0; infinite; S754_zero true; dbl 1 (-149); S754_zero true]
  /\ (less ieee (dbl 1 0) (dbl 1 0), less_eq ieee (dbl 1 0) (dbl 1 0), equal ieee (dbl 1 0) (dbl 1 0), less ieee nan (dbl 1 0), less ieee (dbl 1 0) (dbl 2 0))
     = (false, true, true, false, true).
Proof. repeat (split; [vm_compute; reflexivity|]). vm_compute. reflexivity. Qed.

(** * What goes wrong *)

Open Scope Z_scope.
Definition edge_box : spec_float := dbl 105 0.
Definition below_edge : spec_float := dbl (105 * 2 ^ 46 - 1) (-46).

(** A particle inside the box is written outside of the grid. *)
Theorem C112_deposit_edge_refuted : exists (n : Z) (x box : spec_float) (p : rpart ieee),
  SFltb x box = true /\ SFleb (dbl 0 0) x = true /\ p = @mk_rpart ieee x x x (dbl 1 0) (dbl 1 0)
  /\ ~ safe [n; n; n] (deposit_part ieee n (dbl 1 0) box box box p).
Proof.
  exists 128, below_edge, edge_box. eexists. split; [vm_compute; reflexivity|]. split; [vm_compute; reflexivity|].
  split; [reflexivity|]. intro H. unfold deposit_part in H. cbn [r_x r_y r_z] in H.
  assert (E : deposit_cell ieee (single ieee (of_int ieee 128)) (dbl 1 0) below_edge edge_box = 128) by (vm_compute; reflexivity).
  specialize (H _ _ (or_introl eq_refl)). rewrite E in H. inversion H as [|? ? ? ? B]; subst. lia.
Qed.

(** So is a particle just below zero, in a box of any such size. *)
Theorem C112_deposit_below_zero_refuted : exists (n : Z) (x box : spec_float) (p : rpart ieee),
  SFltb x (dbl 0 0) = true /\ box = dbl 1 0 /\ p = @mk_rpart ieee x x x (dbl 1 0) (dbl 1 0)
  /\ ~ safe [n; n; n] (deposit_part ieee n (dbl 1 0) box box box p).
Proof.
  exists 128, (dbl (-1) (-60)), (dbl 1 0). eexists. split; [vm_compute; reflexivity|]. split; [reflexivity|].
  split; [reflexivity|]. intro H. unfold deposit_part in H. cbn [r_x r_y r_z] in H.
  assert (E : deposit_cell ieee (single ieee (of_int ieee 128)) (dbl 1 0) (dbl (-1) (-60)) (dbl 1 0) = 128) by (vm_compute; reflexivity).
  specialize (H _ _ (or_introl eq_refl)). rewrite E in H. inversion H as [|? ? ? ? B]; subst. lia.
Qed.

(** A value that is not a number is looked up outside of the colour map. *)
Theorem C112_lookup_nan_refuted : exists n, 1 <= n /\ ~ 0 <= lookup_index ieee n S754_nan < n.
Proof.
  exists 256. split; [lia|]. assert (E : lookup_index ieee 256 S754_nan = - 2 ^ 31) by (vm_compute; reflexivity). rewrite E. lia.
Qed.

(** Concrete cases: the same loops with double-precision numbers. *)
Example C112_example_deposit :
  deposit_cell ieee (single ieee (of_int ieee 128)) (dbl 1 0) (dbl (105 * 2 ^ 46 - 2) (-46)) edge_box = 127
  /\ deposit_cell ieee (single ieee (of_int ieee 128)) (dbl 4 0) (dbl 30 0) edge_box = 18
  /\ lookup_index ieee 256 (dbl 2 0) = 255 /\ lookup_index ieee 256 (S754_infinity true) = 0.
Proof. repeat split; vm_compute; reflexivity. Qed.

Example C111_example :
  map fst (fast_part ieee 8 (dbl 1 0) (dbl 1 0) (@mk_rpart ieee (dbl 1 (-1)) (dbl 1 (-2)) (dbl 0 0) (dbl 1 0) (dbl 1 (-4)))) = [[4; 2]]
  /\ map fst (fast_part ieee 2 (dbl 0 0) (dbl 0 0) (@mk_rpart ieee (dbl 1 (-1)) (dbl 1 (-2)) (dbl 0 0) (dbl 1 0) (dbl 1 1)))
     = [[0; 0]; [0; 1]; [1; 0]; [1; 1]]
  /\ map fst (fast_part ieee 8 (dbl 1 0) (dbl 1 0) (@mk_rpart ieee S754_nan (dbl 1 (-2)) (dbl 0 0) (dbl 1 0) (dbl 1 (-4)))) = [].
Proof. repeat split; vm_compute; reflexivity. Qed.

(** The hypotheses of the theorems on rounded numbers are met. *)
Example C112_example_inside : (0 <= (1 / 2) <= folded_box 1 1 * (1 - / 2 ^ 51))%R /\ (0 < folded_box 1 1)%R
  /\ format (1 / 2)%R.
Proof.
  assert (E : folded_box 1 1 = 1%R). { unfold folded_box. replace (1 / 1)%R with 1%R by field. apply rnd_1. }
  rewrite E. assert (H : (0 < / 2 ^ 51 <= / 2)%R).
  { split; [apply Rinv_0_lt_compat; apply pow_lt; lra|]. apply Rinv_le; [lra|]. simpl. lra. }
  split; [lra|]. split; [lra|]. replace (1 / 2)%R with (bpow radix2 (-1)) by (cbn; lra).
  apply generic_format_bpow. unfold FLX_exp. lia.
Qed.

Print Assumptions C112_deposit_iff.
Print Assumptions C112_deposit_inside.
Print Assumptions C112_histogram.
Print Assumptions C112_lookup.
Print Assumptions C112_remainder.
Print Assumptions C112_rounded.
Print Assumptions C112_operations.
Print Assumptions C112_deposit_edge_refuted.
Print Assumptions C112_deposit_below_zero_refuted.
Print Assumptions C112_lookup_nan_refuted.

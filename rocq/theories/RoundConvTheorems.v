(** C114: conversions between frames with rounded numbers. *)
From Coq Require Import List ZArith QArith Lia Lra Bool Floats.SpecFloat Reals.
From Flocq Require Import Core Mult_error.
From Verif Require Import Base RoundModel RoundFloatModel RoundTripProofs RoundConvModel.
From Verif Require RoundExactTheorems CosmoModel.
Import ListNotations.
Open Scope R_scope.

Local Notation fmt p := (generic_format radix2 (FLX_exp p)).

(** * Exact numbers: the model of C25 *)

Definition of_carr (f : R) (x : CosmoModel.carr) : farr RoundExactTheorems.exact :=
  @mk_farr RoundExactTheorems.exact (CosmoModel.avals x) (CosmoModel.acm x) (CosmoModel.avt x) (Some f) false.

Theorem C114_exact : forall x f, CosmoModel.factor_of (CosmoModel.acf x) = Ok f ->
  make_physical _ (of_carr f x) = (do y <- CosmoModel.convert_to_physical x; Ok (of_carr f y))
  /\ make_comoving _ (of_carr f x) = (do y <- CosmoModel.convert_to_comoving x; Ok (of_carr f y)).
Proof.
  intros [v c m t cc] f H. unfold make_physical, make_comoving, of_carr, CosmoModel.convert_to_physical, CosmoModel.convert_to_comoving.
  cbn [CosmoModel.acf CosmoModel.acm CosmoModel.avt CosmoModel.avals f_comoving f_valid] in *. rewrite H.
  destruct m as [[]|]; destruct t; split; reflexivity.
Qed.

(** * One conversion *)

(** Arrays of integers are not converted in place. *)
Theorem C114_integers : forall A (x : farr A), f_whole x = true ->
  (f_comoving x = Some true -> make_physical A x = Err TypeError)
  /\ (f_comoving x = Some false -> f_valid x = true -> make_comoving A x = Err TypeError)
  /\ forall l, run A l x = x.
Proof.
  intros A [v m t f w] W. cbn [f_whole] in W. subst w.
  assert (I : forall op b, in_place A op (mk_farr v m t f true) b = Err TypeError) by (intros op b; unfold in_place; cbn; destruct f; reflexivity).
  split; [|split].
  - cbn [f_comoving]. intros ->. unfold make_physical. cbn [f_comoving]. apply I.
  - cbn [f_comoving f_valid]. intros -> ->. unfold make_comoving. cbn [f_comoving f_valid]. apply I.
  - assert (S : forall c, step A c (mk_farr v m t f true) = mk_farr v m t f true).
    { intros []; unfold step, make_comoving, make_physical; cbn [f_comoving f_valid]; destruct m as [[]|]; try reflexivity; [destruct t; [rewrite I|]|rewrite I]; reflexivity. }
    intro l. unfold run. induction l as [|c l IH]; cbn [fold_left]; [reflexivity|]. rewrite S. exact IH.
Qed.

(** The arithmetic. *)
Theorem C114_arithmetic : forall p (x y : R),
  (less (rounded_to p) x y = true <-> x < y) /\ (less_eq (rounded_to p) x y = true <-> x <= y) /\ (equal (rounded_to p) x y = true <-> x = y)
  /\ (add (rounded_to p) x y = rnd p (x + y) /\ sub (rounded_to p) x y = rnd p (x - y))
  /\ (mul (rounded_to p) x y = rnd p (x * y) /\ div (rounded_to p) x y = rnd p (x / y))
  /\ (larger (rounded_to p) x y = Rmax x y /\ smaller (rounded_to p) x y = Rmin x y)
  /\ (root (rounded_to p) x = rnd p (sqrt x) /\ floor (rounded_to p) x = IZR (Zfloor x) /\ ceil (rounded_to p) x = IZR (Zceil x))
  /\ (forall n, of_int (rounded_to p) n = IZR n) /\ int32 (rounded_to p) x = Ztrunc x /\ int (rounded_to p) x = Ztrunc x
  /\ forall q, lit (rounded_to p) q = rnd p (Q2R q).
Proof.
  intros p x y. cbn [rounded_to less less_eq equal].
  split; [destruct (Rlt_dec x y); split; intro; try assumption; try reflexivity; try discriminate; contradiction|].
  split; [destruct (Rle_dec x y); split; intro; try assumption; try reflexivity; try discriminate; contradiction|].
  split; [destruct (Req_EM_T x y); split; intro; try assumption; try reflexivity; try discriminate; contradiction|].
  repeat split.
Qed.

(** The order of the values is kept. *)
Theorem C114_order : forall p f x y, (1 < p)%Z -> 0 < f -> x <= y -> rnd p (x * f) <= rnd p (y * f) /\ rnd p (x / f) <= rnd p (y / f).
Proof.
  intros p f x y P F H. split; apply rn_le; try exact P; [nra|]. apply Rmult_le_compat_r; [left; apply Rinv_0_lt_compat; exact F|exact H].
Qed.

(** * There and back *)

Definition comoving_array p (v : list R) (f : R) (valid : bool) : farr (rounded_to p) := @mk_farr (rounded_to p) v (Some true) valid (Some f) false.

Lemma there_and_back p v f : run (rounded_to p) [ToPhysical; ToComoving] (comoving_array p v f true)
  = comoving_array p (map (trip p f) v) f true.
Proof.
  unfold run, comoving_array. cbn. unfold comoving_array. rewrite map_map. reflexivity.
Qed.

(** Within two units of rounding of where it was. *)
Theorem C114_round_trip : forall p v f, (1 < p)%Z -> f <> 0 ->
  exists w, run (rounded_to p) [ToPhysical; ToComoving] (comoving_array p v f true) = comoving_array p w f true
            /\ Forall2 (fun x y => Rabs (y - x) <= Rabs x * (2 * / 2 ^ Z.to_nat p + / 2 ^ Z.to_nat p * / 2 ^ Z.to_nat p)) v w.
Proof.
  intros p v f P N. exists (map (trip p f) v). split; [apply there_and_back|].
  assert (E : / 2 ^ Z.to_nat p = bpow radix2 (- p)).
  { rewrite bpow_opp. f_equal. rewrite <- (Z2Nat.id p) at 2 by lia. rewrite bpow_powerRZ. rewrite <- pow_powerRZ. reflexivity. }
  rewrite E. induction v as [|x v IH]; cbn [map]; constructor; [|exact IH]. exact (one_trip p P f (/ f) x N eq_refl).
Qed.

(** Factors that are powers of two lose nothing. *)
Theorem C114_powers_of_two : forall p v e, (1 < p)%Z -> Forall (fmt p) v ->
  run (rounded_to p) [ToPhysical; ToComoving] (comoving_array p v (bpow radix2 e) true) = comoving_array p v (bpow radix2 e) true.
Proof.
  intros p v e P H. rewrite there_and_back. f_equal. rewrite <- (map_id v) at 2. apply map_ext_in. intros x Hx.
  rewrite Forall_forall in H. specialize (H x Hx). unfold trip. pose proof (bpow_gt_0 radix2 e). assert (Prec_gt_0 p) by (unfold Prec_gt_0; lia).
  rewrite (rn_id p (x * bpow radix2 e)) by (apply mult_bpow_exact_FLX; exact H).
  replace (x * bpow radix2 e / bpow radix2 e) with x by (field; lra). apply rn_id; assumption.
Qed.

(** However often an array is converted: as a comoving array it has the first values or those after going
    there and back once, as a physical array one of two others. *)
Theorem C114_settles : forall p v f valid l, (1 < p)%Z -> Forall (fmt p) v -> fmt p f -> 0 < f ->
  let x := run (rounded_to p) l (comoving_array p v f valid) in
  let physical := map (fun u => rnd p (u * f)) in
  let back := map (fun u => rnd p (u / f)) in
  (f_comoving x = Some true /\ (f_vals x = v \/ f_vals x = back (physical v)))
  \/ (f_comoving x = Some false /\ (f_vals x = physical v \/ f_vals x = physical (back (physical v)))).
Proof.
  intros p v f valid l P Hv Ff F. cbv zeta.
  set (physical := map (fun u => rnd p (u * f))). set (back := map (fun u => rnd p (u / f))).
  assert (S : back (physical (back (physical v))) = back (physical v)).
  { unfold back, physical. rewrite !map_map. apply map_ext_in. intros u Hu. rewrite Forall_forall in Hv.
    exact (settles p P f u (Hv u Hu) Ff F). }
  set (ok := fun x : farr (rounded_to p) => f_factor x = Some f /\ f_whole x = false /\ f_valid x = valid /\
    ((f_comoving x = Some true /\ (f_vals x = v \/ f_vals x = back (physical v)))
     \/ (f_comoving x = Some false /\ (f_vals x = physical v \/ f_vals x = physical (back (physical v)))))).
  assert (K : forall l x, ok x -> ok (run (rounded_to p) l x)).
  { clear l. intro l. unfold run. induction l as [|c l IH]; intros x Hx; cbn [fold_left]; [exact Hx|]. apply IH. clear IH.
    destruct x as [w m t ff wh]. destruct Hx as (E1 & E2 & E3 & Hx). cbn [f_factor f_whole f_valid f_comoving f_vals] in *. subst ff wh t.
    destruct Hx as [(-> & Hx)|(-> & Hx)]; destruct c; unfold step, make_comoving, make_physical, in_place;
      cbn [f_comoving f_valid f_factor f_whole f_vals].
    - repeat split; cbn [f_comoving f_vals]. left. tauto.
    - repeat split; cbn [f_comoving f_vals]. right. split; [reflexivity|]. change (map _ w) with (physical w). destruct Hx as [-> | ->]; tauto.
    - destruct valid.
      + repeat split; cbn [f_comoving f_vals]. left. split; [reflexivity|]. change (map _ w) with (back w). destruct Hx as [-> | ->]; [tauto|]. right. exact S.
      + repeat split; cbn [f_comoving f_vals]. right. tauto.
    - repeat split; cbn [f_comoving f_vals]. right. tauto. }
  destruct (K l (comoving_array p v f valid)) as (_ & _ & _ & R); [|exact R].
  unfold ok, comoving_array. cbn [f_comoving f_vals f_factor f_whole f_valid]. repeat split. left. tauto.
Qed.

(** The same for arrays that begin as physical. *)
Theorem C114_settles_physical : forall p f x, (1 < p)%Z -> fmt p x -> fmt p f -> 0 < f ->
  let trip u := rnd p (rnd p (u / f) * f) in trip (trip x) = trip x.
Proof. intros p f x P Fx Ff F. exact (settles_back p P f x Fx Ff F). Qed.

(** * What is lost *)

(** Double precision: three, with the factor 0.1. *)
Definition one_tenth : spec_float := dbl 3602879701896397 (-55).
Definition ieee_array (v f : spec_float) : farr ieee := @mk_farr ieee [v] (Some true) true (Some f) false.
Theorem C114_lossless_refuted : exists v f x, SFltb (dbl 0 0) f = true
  /\ f_vals (run ieee [ToPhysical; ToComoving] (ieee_array v f)) = [x] /\ SFltb v x = true.
Proof. exists (dbl 3 0), one_tenth, (dbl (3 * 2 ^ 51 + 1) (-51)). repeat split; vm_compute; reflexivity. Qed.

(** Converted four more times, the value stays where it is; with a factor of one half nothing changes. *)
Example C114_example :
  f_vals (run ieee [ToPhysical; ToComoving; ToPhysical; ToComoving; ToPhysical; ToComoving] (ieee_array (dbl 3 0) one_tenth))
  = f_vals (run ieee [ToPhysical; ToComoving] (ieee_array (dbl 3 0) one_tenth))
  /\ f_vals (run ieee [ToPhysical; ToComoving] (ieee_array (dbl 3 0) (dbl 1 (-1)))) = [dbl 3 0].
Proof. split; vm_compute; reflexivity. Qed.

Example C114_example_hypotheses : (1 < 53)%Z /\ fmt 53 3 /\ fmt 53 (3 / 4) /\ 0 < 3 / 4.
Proof.
  assert (Prec_gt_0 53) by reflexivity. split; [lia|]. split; [|split; [|lra]]; apply generic_format_FLX.
  - exists (Float radix2 3 0); [unfold F2R; cbn; lra|cbn; lia].
  - exists (Float radix2 3 (-2)); [unfold F2R; cbn; lra|cbn; lia].
Qed.

Print Assumptions C114_exact.
Print Assumptions C114_integers.
Print Assumptions C114_arithmetic.
Print Assumptions C114_order.
Print Assumptions C114_round_trip.
Print Assumptions C114_powers_of_two.
Print Assumptions C114_settles.
Print Assumptions C114_settles_physical.
Print Assumptions C114_lossless_refuted.

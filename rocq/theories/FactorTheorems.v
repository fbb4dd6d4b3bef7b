(** C96: operators and comparisons of scale-factor labels. *)
From Coq Require Import String Ascii List Bool Reals Lra.
From Verif Require Import Base CosmoModel FactorModel FactorSpec.
Import ListNotations.
Open Scope R_scope.

Lemma a_factor_worth : forall c v, a_factor c = Some v <-> worth c v.
Proof.
  intros [e a] v. unfold a_factor, worth. cbn. split.
  - destruct e as [e|], a as [a|]; intro H; try discriminate H. injection H as <-. eauto.
  - intros (e' & a' & -> & -> & ->). reflexivity.
Qed.
Lemma a_factor_none : forall c, a_factor c = None <-> worthless c.
Proof.
  intros [e a]. unfold a_factor, worthless. cbn. destruct e, a; split; intro H; auto; try discriminate; destruct H; discriminate.
Qed.
Lemma worth_unique : forall c u v, worth c u -> worth c v -> u = v.
Proof. intros c u v H K. apply a_factor_worth in H, K. congruence. Qed.
Lemma worth_not : forall c v, worth c v -> worthless c -> False.
Proof. intros c v H K. apply a_factor_worth in H. apply a_factor_none in K. congruence. Qed.

Lemma by_value_exact : forall test rel, (forall u v, test u v = true <-> rel u v) ->
  forall x b r, on_factor (by_value test) x b = r <-> compared rel x b r.
Proof.
  intros test rel T x b r. destruct b as [y| |]; cbn [on_factor].
  - unfold by_value. destruct (a_factor x) as [u|] eqn:X; [destruct (a_factor y) as [v|] eqn:Y|].
    + apply a_factor_worth in X, Y. split.
      * intros <-. destruct (test u v) eqn:E; [apply (cm_yes rel x y u v); try assumption; apply T; exact E|].
        apply (cm_no rel x y u v); try assumption. intro K. apply T in K. congruence.
      * intro H. inversion H as [y' u' v' X' Y' K|y' u' v' X' Y' K|y' K| |]; subst.
        -- rewrite (worth_unique _ _ _ X X'), (worth_unique _ _ _ Y Y'). f_equal. apply T. exact K.
        -- rewrite (worth_unique _ _ _ X X'), (worth_unique _ _ _ Y Y'). f_equal.
           destruct (test u' v') eqn:E; [|reflexivity]. apply T in E. contradiction.
        -- exfalso. destruct K as [K|K]; [exact (worth_not _ _ X K)|exact (worth_not _ _ Y K)].
    + apply a_factor_none in Y. split; [intros <-; apply cm_none; auto|].
      intro H. inversion H as [y' u' v' X' Y' K|y' u' v' X' Y' K|y' K| |]; subst; try reflexivity; exfalso; exact (worth_not _ _ Y' Y).
    + apply a_factor_none in X. split; [intros <-; apply cm_none; auto|].
      intro H. inversion H as [y' u' v' X' Y' K|y' u' v' X' Y' K|y' K| |]; subst; try reflexivity; exfalso; exact (worth_not _ _ X' X).
  - split; [intros <-; apply cm_number|intro H; inversion H; reflexivity].
  - split; [intros <-; apply cm_other|intro H; inversion H; reflexivity].
Qed.

Lemma ltb_iff : forall u v, Rltb u v = true <-> u < v.
Proof. intros. unfold Rltb. destruct (Rlt_dec u v); split; intro; try reflexivity; try discriminate; lra. Qed.
Lemma leb_iff : forall u v, Rleb u v = true <-> u <= v.
Proof. intros. unfold Rleb. destruct (Rle_dec u v); split; intro; try reflexivity; try discriminate; lra. Qed.

(** C96: the four comparisons compare the values of the factors. *)
Theorem C96_comparisons : forall x b r,
  (f_lt x b = r <-> compared Rlt x b r) /\ (f_gt x b = r <-> compared Rgt x b r)
  /\ (f_le x b = r <-> compared Rle x b r) /\ (f_ge x b = r <-> compared Rge x b r).
Proof.
  intros x b r. repeat split; apply by_value_exact; intros u v; rewrite ?ltb_iff, ?leb_iff; unfold Rgt, Rge; lra.
Qed.

(** C96: equality and inequality are opposite, and refuse what is no factor. *)
Theorem C96_unequal : forall x b r,
  f_ne x b = r <-> match b with
                   | FFactor y => exists e, f_eq x (FFactor y) = Ok e /\ r = Ok (negb e)
                   | _ => r = Err ValueError /\ f_eq x b = Err ValueError
                   end.
Proof.
  intros x b r. destruct b; cbn.
  - split; [intros <-; eauto|]. intros (e & E & ->). injection E as ->. reflexivity.
  - split; [intros <-; auto|intros [-> _]; reflexivity].
  - split; [intros <-; auto|intros [-> _]; reflexivity].
Qed.

Lemma oreqb_iff : forall a b, oreqb a b = true <-> a = b.
Proof.
  intros [a|] [b|]; cbn; unfold Reqb; try (split; intro; (reflexivity || discriminate)).
  destruct (Req_EM_T a b); split; intro H; try reflexivity; try congruence; discriminate.
Qed.
Lemma oreqb_not : forall a b, oreqb a b = false <-> a <> b.
Proof. intros a b. split; intro H; [intro K; apply oreqb_iff in K; congruence|destruct (oreqb a b) eqn:E; [apply oreqb_iff in E; contradiction|reflexivity]]. Qed.

(** C96: every outcome of the operators; the reflected ones are those of the other operand, for factors. *)
Theorem C96_sums : forall x b r, (f_add x b = r <-> summed x b r) /\ (f_sub x b = r <-> summed x b r).
Proof.
  assert (G : forall x b r, on_factor cf_add x b = r <-> summed x b r).
  { intros x b r. destruct b as [y| |]; cbn [on_factor];
      [|split; [intros <-; apply sm_number|intro H; inversion H; reflexivity]|split; [intros <-; apply sm_other|intro H; inversion H; reflexivity]].
    unfold cf_add. destruct x as [e a], y as [f b]; cbn [cexpr cscale].
    destruct (oreqb a b) eqn:A; cbn [negb]; [apply oreqb_iff in A; subst b; destruct (oreqb e f) eqn:E; cbn [negb]|apply oreqb_not in A].
    - apply oreqb_iff in E. subst f. split; [intros <-; apply sm_same|]. intro H. inversion H; subst; [reflexivity|congruence].
    - apply oreqb_not in E. split; [intros <-; apply sm_differ; congruence|]. intro H. inversion H; subst; [congruence|reflexivity].
    - split; [intros <-; apply sm_differ; congruence|]. intro H. inversion H; subst; [congruence|reflexivity]. }
  intros x b r. split; apply G.
Qed.
Lemma multiplied_ok : forall sign f, (forall e g, f e g = e + sign * g) -> forall x y,
  multiplied sign x (FFactor y)
    (if negb (oreqb (cscale x) (cscale y)) then Err InvalidScaleFactor
     else match cexpr x, cexpr y with
          | None, None => Ok (mkcf None (cscale x))
          | Some e, Some g => Ok (mkcf (Some (f e g)) (cscale x))
          | _, _ => Err InvalidScaleFactor
          end).
Proof.
  intros sign f F [e a] [g b]. cbn [cexpr cscale]. destruct (oreqb a b) eqn:A; cbn [negb].
  - apply oreqb_iff in A. subst b. destruct e as [e|], g as [g|].
    + rewrite F. eapply ml_both; reflexivity.
    + apply ml_one; [reflexivity|]. right. cbn. split; [discriminate|reflexivity].
    + apply ml_one; [reflexivity|]. left. cbn. split; [reflexivity|discriminate].
    + eapply ml_none. reflexivity.
  - apply ml_differ. cbn. apply oreqb_not. exact A.
Qed.
Lemma multiplied_unique : forall sign x b r r', multiplied sign x b r -> multiplied sign x b r' -> r = r'.
Proof.
  intros sign x b r r' H K.
  destruct H as [y e f a X Y|a X|y X|y X Y| |]; inversion K as [y' e' f' a' X' Y'|a' X'|y' X'|y' X' Y'| |]; subst; cbn in *; try congruence;
    try (exfalso; intuition congruence).
Qed.
Theorem C96_products : forall x b r, (f_mul x b = r <-> multiplied 1 x b r) /\ (f_div x b = r <-> multiplied (-1) x b r).
Proof.
  intros x b r.
  assert (M : multiplied 1 x b (f_mul x b)).
  { destruct b as [y| |]; cbn; [|apply ml_number|apply ml_other]. unfold cf_mul. apply (multiplied_ok 1 Rplus). intros; ring. }
  assert (Q : multiplied (-1) x b (f_div x b)).
  { destruct b as [y| |]; cbn; [|apply ml_number|apply ml_other]. unfold cf_div. apply (multiplied_ok (-1) Rminus). intros; ring. }
  split; (split; [intros <-; assumption|]); intro H; eapply multiplied_unique; eassumption.
Qed.
Theorem C96_reflected : forall x y,
  f_radd x (FFactor y) = f_add y (FFactor x) /\ f_rsub x (FFactor y) = f_sub y (FFactor x)
  /\ f_rmul x (FFactor y) = f_mul y (FFactor x) /\ f_rdiv x (FFactor y) = f_div y (FFactor x).
Proof.
  intros x y.
  assert (A : cf_add x y = cf_add y x).
  { destruct (C96_sums x (FFactor y) (cf_add x y)) as [[H _] _]. specialize (H eq_refl).
    symmetry. change (f_add y (FFactor x) = cf_add x y). apply C96_sums. inversion H; subst; [apply sm_same|apply sm_differ; congruence]. }
  split; [exact A|]. split; [exact A|]. split; [|reflexivity].
  change (f_mul x (FFactor y) = f_mul y (FFactor x)).
  assert (G : forall r, multiplied 1 x (FFactor y) r -> multiplied 1 y (FFactor x) r).
  { intros r H. inversion H as [y' e f a X Y E|a X|y' X|y' X Y| |]; subst.
    - replace (e + 1 * f) with (f + 1 * e) by ring. eapply ml_both; reflexivity.
    - eapply ml_none. reflexivity.
    - apply ml_differ. congruence.
    - apply ml_one; [congruence|]. tauto. }
  symmetry. apply C96_products. apply G. apply C96_products. reflexivity.
Qed.
(** C96: other operands: all but the reflected division refuse them with a value error. *)
Theorem C96_foreign_operands : forall x b, b = FNumber \/ b = FOther ->
  f_radd x b = Err ValueError /\ f_rsub x b = Err ValueError /\ f_rmul x b = Err ValueError
  /\ f_rdiv x b = Err (match b with FNumber => TypeError | _ => AttributeError end).
Proof. intros x b [->| ->]; repeat split. Qed.

(** C96: the order is total on factors that have a value, and tells exponents apart below [a = 1]: the larger the
    exponent the smaller the factor. *)
Theorem C96_total : forall x y u v, worth x u -> worth y v ->
  (f_le x (FFactor y) = Ok true \/ f_le y (FFactor x) = Ok true)
  /\ f_lt x (FFactor y) = f_gt y (FFactor x)
  /\ (f_lt x (FFactor y) = Ok true <-> f_le y (FFactor x) = Ok false).
Proof.
  intros x y u v X Y. apply a_factor_worth in X, Y. unfold f_le, f_lt, f_gt. cbn [on_factor]. unfold by_value. rewrite X, Y.
  split; [|split; [reflexivity|]].
  - destruct (Rle_dec u v) as [L|L]; [left|right]; f_equal; apply leb_iff; lra.
  - unfold Rltb, Rleb. destruct (Rlt_dec u v), (Rle_dec v u); split; intro; try reflexivity; try discriminate; lra.
Qed.
Theorem C96_transitive : forall x y z, f_le x (FFactor y) = Ok true -> f_le y (FFactor z) = Ok true -> f_le x (FFactor z) = Ok true.
Proof.
  intros x y z H K. apply (C96_comparisons x (FFactor y) (Ok true)) in H. apply (C96_comparisons y (FFactor z) (Ok true)) in K.
  apply (C96_comparisons x (FFactor z) (Ok true)).
  inversion H as [y' u v X Y L| | | |]; subst. inversion K as [z' v' w Y' Z L'| | | |]; subst.
  rewrite (worth_unique _ _ _ Y' Y) in L'. apply (cm_yes Rle x z u w X Z). lra.
Qed.
Theorem C96_exponents : forall a j k, 0 < a < 1 -> f_lt (cf_create a j) (FFactor (cf_create a k)) = Ok true <-> k < j.
Proof.
  intros a j k [A B]. unfold f_lt. cbn [on_factor]. unfold by_value, cf_create, a_factor. cbn [cexpr cscale].
  assert (M : forall p q, p < q -> Rpower a q < Rpower a p).
  { intros p q L. unfold Rpower. apply exp_increasing. assert (ln a < 0) by (rewrite <- ln_1; apply ln_increasing; lra). nra. }
  split.
  - intro H. injection H as H. apply ltb_iff in H. destruct (Rlt_or_le k j) as [L|L]; [exact L|].
    destruct (Rle_lt_or_eq_dec _ _ L) as [L'|L']; [specialize (M _ _ L'); lra|subst; lra].
  - intro L. f_equal. apply ltb_iff. apply M. exact L.
Qed.
(** C96: [<=] is not "[<] or [==]": factors of the same value at different scale factors are not equal, and factors
    of different value can be. *)
Theorem C96_order_and_equality_refuted :
  (exists x y, f_le x (FFactor y) = Ok true /\ f_lt x (FFactor y) = Ok false /\ f_eq x (FFactor y) = Ok false)
  /\ (exists x y, f_lt x (FFactor y) = Ok true /\ f_eq x (FFactor y) = Ok true).
Proof.
  split.
  - exists (cf_create 1 0), (cf_create (1 / 2) 0).
    assert (P : Rpower 1 0 = 1 /\ Rpower (1 / 2) 0 = 1) by (split; apply Rpower_O; lra). destruct P as [P Q].
    unfold f_le, f_lt, f_eq, cf_eq, cf_create. cbn [on_factor]. unfold by_value, a_factor. cbn [cexpr cscale]. rewrite P, Q.
    split; [f_equal; apply leb_iff; lra|]. split.
    + f_equal. unfold Rltb. destruct (Rlt_dec 1 1); [lra|reflexivity].
    + cbn [oreqb]. unfold Reqb. destruct (Req_EM_T 1 (1 / 2)); [lra|reflexivity].
  - assert (A : 0 < 1 - / 10 ^ 9 < 1) by (split; cbn; lra). set (a := 1 - / 10 ^ 9) in *.
    exists (cf_create a 1), (cf_create a 0). split; [apply C96_exponents; [exact A|lra]|].
    unfold f_eq, cf_eq, cf_create, a_factor. cbn [on_factor cexpr cscale]. f_equal.
    rewrite (proj2 (oreqb_iff _ _) eq_refl). cbn [andb]. rewrite Rpower_1 by lra. rewrite Rpower_O by lra.
    unfold isclose. apply leb_iff. rewrite Rabs_left by lra. rewrite Rabs_R1. unfold a. cbn. lra.
Qed.

(** A text without a character. *)
Fixpoint free (c : Ascii.ascii) (s : string) : Prop :=
  match s with EmptyString => True | String d t => d <> c /\ free c t end.
Lemma split_at : forall c a b r s, free c a -> free c b -> (a ++ String c r = b ++ String c s)%string -> a = b /\ r = s.
Proof.
  intros c. induction a as [|x a IH]; intros [|y b] r s A B H; cbn in *.
  - injection H as H. auto.
  - injection H as H1 H2. destruct B as [B _]. congruence.
  - injection H as H1 H2. destruct A as [A _]. congruence.
  - injection H as H1 H2. destruct (IH b r s (proj2 A) (proj2 B) H2) as [-> ->]. subst. auto.
Qed.
Lemma cut_end : forall a b c, (a ++ String c EmptyString = b ++ String c EmptyString)%string -> a = b.
Proof.
  induction a as [|x a IH]; intros [|y b] c H; cbn in *; [reflexivity| | |].
  - injection H as H1 H2. destruct b; discriminate H2.
  - injection H as H1 H2. destruct a; discriminate H2.
  - injection H as H1 H2. rewrite (IH _ _ H2), H1. reflexivity.
Qed.
(** C96: the texts of two factors differ when those of their exponents or scale factors do. *)
Theorem C96_texts : forall et st x y,
  ((forall e, free " "%char (et e)) -> f_str et st x = f_str et st y -> et (cexpr x) = et (cexpr y) /\ st (cscale x) = st (cscale y))
  /\ ((forall e, free ","%char (et e)) -> f_repr et st x = f_repr et st y -> et (cexpr x) = et (cexpr y) /\ st (cscale x) = st (cscale y)).
Proof.
  intros et st x y. split; intros W H.
  - unfold f_str in H. apply split_at in H; try apply W. destruct H as [A B]. split; [exact A|].
    cbn in B. injection B as B. exact B.
  - unfold f_repr in H. cbn in H. injection H as H.
    apply (split_at ","%char) in H; try apply W. destruct H as [A B]. split; [exact A|].
    cbn in B. injection B as B. exact (cut_end _ _ _ B).
Qed.

Example C96_case : let x := cf_create (1 / 2) 1 in let y := cf_create (1 / 2) 3 in
  worth x (Rpower (1 / 2) 1) /\ f_lt y (FFactor x) = Ok true /\ f_lt x (FFactor null_cf) = Err TypeError
  /\ f_rdiv x (FFactor y) = Ok (mkcf (Some (3 - 1)) (Some (1 / 2))) /\ f_lt x FNumber = Err ValueError
  /\ f_str (fun _ => "a**2"%string) (fun _ => "0.5"%string) x = "a**2 at a=0.5"%string
  /\ f_repr (fun _ => "a**2"%string) (fun _ => "0.5"%string) x = "cosmo_factor(expr=a**2, scale_factor=0.5)"%string.
Proof.
  cbv zeta. split; [exists 1, (1 / 2); repeat split|]. split; [apply C96_exponents; lra|]. split; [reflexivity|]. split; [|repeat split].
  unfold f_rdiv, cf_div, cf_create. cbn [cexpr cscale]. rewrite (proj2 (oreqb_iff _ _) eq_refl). reflexivity.
Qed.

Print Assumptions C96_comparisons.
Print Assumptions C96_unequal.
Print Assumptions C96_sums.
Print Assumptions C96_products.
Print Assumptions C96_reflected.
Print Assumptions C96_foreign_operands.
Print Assumptions C96_total.
Print Assumptions C96_transitive.
Print Assumptions C96_exponents.
Print Assumptions C96_order_and_equality_refuted.
Print Assumptions C96_texts.

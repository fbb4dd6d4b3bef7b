(** C25, C28, C29, C30: every outcome of the conversions and of the rules for labels. *)
From Coq Require Import List ZArith Bool Reals Lra Lia.
From Verif Require Import Base CosmoModel CosmoExactSpec.
Import ListNotations.
Open Scope R_scope.

Lemma converted_unique : forall b x r r', converted b x r -> converted b x r' -> r = r'.
Proof.
  intros b x r r' H H'.
  assert (NB : Some (negb b) <> Some b) by (destruct b; discriminate).
  destruct H as [A|A|B A V|A V L|c A V L O|k s A V L], H' as [A'|A'|B' A' V'|A' V' L'|c' A' V' L' O'|k' s' A' V' L'];
    try reflexivity; try congruence; try (subst b; cbn [negb] in *; congruence);
    try (subst b; specialize (V eq_refl); congruence); try (subst b; specialize (V' eq_refl); congruence).
  - rewrite L in L'. injection L' as ->. cbn in O. destruct O; discriminate.
  - rewrite L in L'. injection L' as <-. cbn in O'. destruct O'; discriminate.
  - rewrite L in L'. injection L' as <- <-. reflexivity.
Qed.

Lemma comoving_converted : forall x, converted true x (convert_to_comoving x).
Proof.
  intros [v c [[|]|] [|] p]; unfold convert_to_comoving; cbn [acm avt negb orb];
    try (constructor; reflexivity); try (apply cv_fixed; reflexivity).
  destruct c as [[[k|] [s|]]|]; cbn [factor_of acf a_factor cexpr cscale bind avals acomp];
    try (eapply cv_no_value; cbn; eauto; fail); try (apply cv_no_label; cbn; auto; fail).
  refine (cv_values true (mkarr v (Some (mkcf (Some k) (Some s))) (Some false) true p) k s eq_refl _ eq_refl). auto.
Qed.

Lemma physical_converted : forall x, converted false x (convert_to_physical x).
Proof.
  intros [v c [[|]|] t p]; unfold convert_to_physical; cbn [acm avt]; try (constructor; reflexivity).
  destruct c as [[[k|] [s|]]|]; cbn [factor_of acf a_factor cexpr cscale bind avals acomp];
    try (eapply cv_no_value; cbn; eauto; discriminate); try (apply cv_no_label; cbn; auto; discriminate).
  refine (cv_values false (mkarr v (Some (mkcf (Some k) (Some s))) (Some true) t p) k s eq_refl _ eq_refl). discriminate.
Qed.

Theorem C25_conversions_exact : forall x r,
  (convert_to_comoving x = r <-> converted true x r) /\ (convert_to_physical x = r <-> converted false x r).
Proof.
  intros x r. split; split.
  - intros <-. apply comoving_converted.
  - intro H. eapply converted_unique; [apply comoving_converted|exact H].
  - intros <-. apply physical_converted.
  - intro H. eapply converted_unique; [apply physical_converted|exact H].
Qed.

Lemma to_comoving_copied : forall x, copied true x (to_comoving x).
Proof.
  intros x. unfold to_comoving. destruct (avt x) eqn:V; cbn [negb andb].
  - apply cp_done; auto. apply comoving_converted.
  - replace (if match acm x with Some false => false | _ => true end then Err InvalidConversion else convert_to_comoving x)
      with (@Err carr InvalidConversion); [apply cp_fixed; auto|].
    unfold convert_to_comoving. rewrite V. destruct (acm x) as [[|]|]; reflexivity.
Qed.

Lemma to_physical_copied : forall x, copied false x (to_physical x).
Proof.
  intros x. unfold to_physical. destruct (avt x) eqn:V; cbn [negb andb].
  - apply cp_done; auto. apply physical_converted.
  - destruct (acm x) as [[|]|] eqn:M.
    + apply cp_fixed; auto.
    + apply cp_done; [right; split; [reflexivity|congruence]|]. apply physical_converted.
    + apply cp_done; [right; split; [reflexivity|congruence]|]. apply physical_converted.
Qed.

Lemma copied_unique : forall b x r r', copied b x r -> copied b x r' -> r = r'.
Proof.
  intros b x r r' [V O|q V C] [V' O'|q' V' C']; auto.
  - destruct V' as [V'|(B & M)]; [congruence|]. destruct O; congruence.
  - destruct V as [V|(B & M)]; [congruence|]. destruct O'; congruence.
  - eapply converted_unique; eauto.
Qed.

(** A converting copy never converts an array that must not be converted. *)
Theorem C25_copies_exact : forall x r,
  (to_comoving x = r <-> copied true x r) /\ (to_physical x = r <-> copied false x r).
Proof.
  intros x r. split; split.
  - intros <-. apply to_comoving_copied.
  - intro H. eapply copied_unique; [apply to_comoving_copied|exact H].
  - intros <-. apply to_physical_copied.
  - intro H. eapply copied_unique; [apply to_physical_copied|exact H].
Qed.

Lemma to_cm_asked : forall b x, asked b x (to_cm (Some b) x).
Proof.
  intros b x. unfold to_cm. destruct (avt x) eqn:V; cbn [negb andb].
  - apply as_done; auto. destruct b; [apply comoving_converted|apply physical_converted].
  - unfold cm_eqb. destruct (acm x) as [m|] eqn:M; cbn [negb].
    + destruct b, m; cbn [Bool.eqb negb]; try (apply as_fixed; congruence).
      * unfold convert_to_comoving. rewrite M. apply as_there; auto.
      * unfold convert_to_physical. rewrite M. apply as_there; auto.
    + apply as_fixed; congruence.
Qed.

Theorem C25_to_exact : forall x, to_cm None x = Ok x /\ forall b r, to_cm (Some b) x = r <-> asked b x r.
Proof.
  intro x. split; [reflexivity|]. intros b r. split.
  - intros <-. apply to_cm_asked.
  - intro H. pose proof (to_cm_asked b x) as H'.
    destruct H as [V M|V M|r V C], H' as [V' M'|V' M'|r' V' C']; try congruence.
    eapply converted_unique; eauto.
Qed.

(** The constructor refuses exactly the flags that contradict each other. *)
Theorem C28_verified_exact : forall cm vt,
  (verify cm vt = Ok tt <-> ~ contradict cm vt) /\ (verify cm vt = Err InvalidConversion <-> contradict cm vt).
Proof.
  intros cm vt. unfold contradict. destruct cm as [[|]|], vt; cbn; split; split; intro H;
    try discriminate; try reflexivity; try tauto;
    try (intros [(A & B)|(A & B)]; discriminate); try (exfalso; apply H; tauto);
    destruct H as [(A & B)|(A & B)]; discriminate.
Qed.

(** * Labels *)

Lemma label_value_model : forall c, label_value c = a_factor c.
Proof. intros [[k|] [s|]]; reflexivity. Qed.

Lemma oreqb_iff : forall x y, oreqb x y = true <-> x = y.
Proof.
  intros [x|] [y|]; cbn; try (split; congruence). unfold Reqb. destruct (Req_EM_T x y); split; congruence.
Qed.

Theorem C30_equality_exact : forall c d, cf_eq c d = true <-> alike c d.
Proof.
  intros c d. unfold cf_eq, alike. rewrite !label_value_model, andb_true_iff, oreqb_iff.
  destruct (a_factor c) as [u|], (a_factor d) as [v|]; try (intuition congruence).
  unfold isclose, Rleb. destruct (Rle_dec _ _); intuition congruence.
Qed.

Lemma alike_false : forall c d, cf_eq c d = false <-> ~ alike c d.
Proof.
  intros c d. rewrite <- C30_equality_exact. destruct (cf_eq c d); intuition congruence.
Qed.

Lemma alike_dec : forall c d, alike c d \/ ~ alike c d.
Proof. intros c d. rewrite <- C30_equality_exact. destruct (cf_eq c d); intuition congruence. Qed.

Lemma mul_product : forall c d, product c d (do r <- cf_mul c d; Ok (Some r)).
Proof.
  intros [j s] [k t]. unfold cf_mul. cbn [cexpr cscale]. destruct (oreqb s t) eqn:E; cbn [negb].
  - apply oreqb_iff in E. subst t. destruct j as [j|], k as [k|]; cbn [bind]; [apply pr_sum|apply pr_left|apply pr_right|apply pr_none].
  - cbn [bind]. apply pr_scales. cbn. intro. subst t. rewrite (proj2 (oreqb_iff s s) eq_refl) in E. discriminate.
Qed.

Lemma product_unique : forall c d r r', product c d r -> product c d r' -> r = r'.
Proof.
  intros c d r r' H H'. destruct H; inversion H'; subst; cbn in *; try reflexivity; try congruence; contradiction.
Qed.

Lemma inverted_pow : forall c, cf_pow c (- 1) = inverted c.
Proof. intros [[k|] s]; reflexivity. Qed.

Lemma divide_simpl : forall c d, h_divide c d = h_multiply2 c (option_map inverted d).
Proof. intros c [d|]; unfold h_divide, h_reciprocal, h_power; cbn [bind option_map]; rewrite ?inverted_pow; reflexivity. Qed.

Lemma handler_label : forall o c d, label_of o c d (bhandler o c d).
Proof.
  intros o c d.
  assert (S : forall o, In o [Badd; Bsub] -> label_of o c d (h_preserve [c; d])).
  { intros o' Ho. unfold h_preserve, reduce, reduce_from, h_preserve2.
    assert (Ho' : In o' [Badd; Bsub; Bmax; Bmin]) by (cbn in *; tauto).
    destruct c as [c|], d as [d|]; cbn [bind]; try (constructor; exact Ho).
    destruct (cf_eq c d) eqn:E; cbn [negb bind].
    - apply la_same_alike; auto. apply C30_equality_exact. exact E.
    - apply la_same_differ; auto. apply alike_false. exact E. }
  assert (M : forall o, In o [Bmax; Bmin] -> label_of o c d (h_passthrough2 c d)).
  { intros o' Ho. unfold h_passthrough2.
    assert (Ho' : In o' [Badd; Bsub; Bmax; Bmin]) by (cbn in *; tauto).
    destruct c as [c|], d as [d|]; try (constructor; exact Ho).
    destruct (cf_eq c d) eqn:E; cbn [negb].
    - apply la_same_alike; auto. apply C30_equality_exact. exact E.
    - apply la_same_differ; auto. apply alike_false. exact E. }
  destruct o; cbn [bhandler]; try (apply S; cbn; tauto); try (apply M; cbn; tauto).
  - unfold h_multiply, reduce, reduce_from, h_multiply2. destruct c as [c|], d as [d|]; cbn [bind];
      [|apply la_mul_left|apply la_mul_none|apply la_mul_none].
    apply la_mul. pose proof (mul_product c d) as P. destruct (cf_mul c d) as [q|e]; exact P.
  - rewrite divide_simpl. unfold h_multiply2. destruct c as [c|], d as [d|]; cbn [option_map];
      [|apply la_div_none|apply la_div_right|apply la_div_none].
    apply la_div, mul_product.
Qed.

Lemma label_unique : forall o c d r r', label_of o c d r -> label_of o c d r' -> r = r'.
Proof.
  intros o c d r r' H H'.
  destruct H; inversion H'; subst; cbn [In] in *; try congruence; try tauto;
    try (eapply product_unique; eassumption);
    repeat match goal with H : _ \/ _ |- _ => destruct H end; try discriminate; try contradiction; try congruence; subst; try discriminate.
Qed.

(** The label of every sum, difference, product, quotient, maximum and minimum. *)
Theorem C29_label_table : forall o c d r, bhandler o c d = r <-> label_of o c d r.
Proof.
  intros o c d r. split.
  - intros <-. apply handler_label.
  - intro H. eapply label_unique; [apply handler_label|exact H].
Qed.

(** The label of a power, and of square roots, squares, cube roots and reciprocals. *)
Theorem C29_power_table : forall c d p r,
  (h_power c d p = r <-> power_label p c d r)
  /\ uhandler Usqrt c = h_power c None (1 / 2) /\ uhandler Usquare c = h_power c None 2
  /\ uhandler Ucbrt c = h_power c None (1 / 3) /\ uhandler Urecip c = h_power c None (- 1)
  /\ uhandler Uneg c = Ok c /\ uhandler Uabs c = Ok c.
Proof.
  intros c d p r.
  assert (P : power_label p c d (h_power c d p)).
  { unfold h_power, cf_pow.
    assert (G : forall c0, mkcf (option_map (fun k => k * p) (cexpr c0)) (cscale c0)
                = match cexpr c0 with None => mkcf None (cscale c0) | Some e => mkcf (Some (e * p)) (cscale c0) end).
    { intros [[k|] s]; reflexivity. }
    destruct d as [d|].
    - rewrite <- label_value_model. destruct (label_value d) as [u|] eqn:U.
      + unfold Reqb. destruct (Req_EM_T u 1) as [E|E]; cbn [negb].
        * assert (K : forall e v, Some d = Some e -> label_value e = Some v -> v = 1).
          { intros e v Q W. injection Q as <-. congruence. }
          destruct c; [rewrite <- G|]; constructor; exact K.
        * eapply pw_bad; eauto.
      + assert (K : forall e v, Some d = Some e -> label_value e = Some v -> v = 1).
        { intros e v Q W. injection Q as <-. congruence. }
        destruct c; [rewrite <- G|]; constructor; exact K.
    - destruct c; [rewrite <- G|]; constructor; discriminate. }
  assert (Q : / 2 = 1 / 2 /\ / 3 = 1 / 3) by lra. destruct Q as (Q2 & Q3).
  split; [|cbn [uhandler]; unfold h_sqrt, h_cbrt; rewrite Q2, Q3; repeat split; reflexivity]. split.
  - intros <-. exact P.
  - intro H. remember (h_power c d p) as q. clear Heqq.
    destruct H; inversion P; subst; try congruence; try reflexivity.
    all: match goal with
         | K : forall e u, Some ?d = Some e -> label_value e = Some u -> u = 1, V : label_value ?d = Some ?u |- _ =>
             exfalso; pose proof (K d u eq_refl V); contradiction
         end.
Qed.

(** Comparisons drop the label, and refuse two labels that are not alike. *)
Theorem C29_comparison_table : forall c d,
  (h_compare c d = Ok None <-> ~ exists x y, c = Some x /\ d = Some y /\ ~ alike x y) /\
  (h_compare c d = Err ValueError <-> exists x y, c = Some x /\ d = Some y /\ ~ alike x y).
Proof.
  intros c d. unfold h_compare. destruct c as [c|], d as [d|].
  2-4: split; split; try discriminate; try reflexivity; try (intros _ (x & y & A & B & _); discriminate);
       try (intros (x & y & A & B & _); discriminate).
  destruct (cf_eq c d) eqn:E; cbn [negb].
  - apply C30_equality_exact in E. split; split; try discriminate; try reflexivity.
    + intros _ (x & y & A & B & N). injection A as <-. injection B as <-. contradiction.
    + intros (x & y & A & B & N). injection A as <-. injection B as <-. contradiction.
  - apply alike_false in E. split; split; try discriminate; try reflexivity.
    + intro H. exfalso. apply H. exists c, d. auto.
    + intros _. exists c, d. auto.
Qed.

(** Many arguments: the first label is kept and all others must be like it. *)
Lemma preserve_some : forall c l,
  reduce_from h_preserve2 (Some c) l = Ok (Some c) /\ (forall x, In (Some x) l -> alike c x)
  \/ reduce_from h_preserve2 (Some c) l = Err ValueError /\ (exists x, In (Some x) l /\ ~ alike c x).
Proof.
  intros c l. induction l as [|[d|] t IH]; cbn [reduce_from h_preserve2 bind].
  - left. split; [reflexivity|]. intros x [].
  - destruct (cf_eq c d) eqn:E; cbn [negb bind].
    + apply C30_equality_exact in E. destruct IH as [(R & A)|(R & x & I & N)].
      * left. split; [exact R|]. intros x [X|X]; [injection X as <-; exact E|apply A; exact X].
      * right. split; [exact R|]. exists x. split; [right; exact I|exact N].
    + apply alike_false in E. right. split; [reflexivity|]. exists d. split; [left; reflexivity|exact E].
  - destruct IH as [(R & A)|(R & x & I & N)].
    + left. split; [exact R|]. intros x [X|X]; [discriminate|apply A; exact X].
    + right. split; [exact R|]. exists x. split; [right; exact I|exact N].
Qed.

Lemma preserve_none : forall l, reduce_from h_preserve2 None l = match l with [] => Ok None | x :: t => reduce_from h_preserve2 x t end.
Proof. intros [|[x|] t]; reflexivity. Qed.

Theorem C29_kept_label : forall l,
  (h_preserve l = Err TypeError <-> l = [])
  /\ (l <> [] -> forall c, first_label l c ->
      (h_preserve l = Ok c /\ (forall a x, c = Some a -> In (Some x) l -> alike a x))
      \/ (h_preserve l = Err ValueError /\ exists a x, c = Some a /\ In (Some x) l /\ ~ alike a x))
  /\ (exists c, first_label l c).
Proof.
  assert (T : forall t y, reduce_from h_preserve2 y t <> Err TypeError).
  { induction t as [|z t IH]; intros y; [discriminate|]. destruct y as [c|].
    - destruct (preserve_some c (z :: t)) as [(R & _)|(R & _)]; rewrite R; discriminate.
    - rewrite preserve_none. apply IH. }
  assert (A : forall t y c, first_label (y :: t) c ->
      (reduce_from h_preserve2 y t = Ok c /\ (forall a x, c = Some a -> In (Some x) (y :: t) -> alike a x))
      \/ (reduce_from h_preserve2 y t = Err ValueError /\ exists a x, c = Some a /\ In (Some x) (y :: t) /\ ~ alike a x)).
  { assert (Refl : forall c, alike c c).
    { intros c. split; [reflexivity|]. destruct (label_value c) as [u|]; [|exact I].
      rewrite Rminus_diag_eq, Rabs_R0 by reflexivity. pose proof (Rabs_pos u). lra. }
    induction t as [|z t IH]; intros y c F.
    - destruct y as [y|].
      + assert (c = Some y).
        { destruct c as [d|]; [|exfalso; pose proof (F _ (or_introl eq_refl)); discriminate].
          destruct F as ([|u a] & b & E & N).
          - injection E as -> _. reflexivity.
          - injection E as E1 E2. destruct a; discriminate. }
        subst c. left. split; [reflexivity|]. intros a x E [X|[]]. injection E as <-. injection X as <-. apply Refl.
      + assert (c = None).
        { destruct c as [d|]; [|reflexivity]. destruct F as ([|u a] & b & E & N); [discriminate|]. injection E as E1 E2. destruct a; discriminate. }
        subst c. left. split; [reflexivity|]. discriminate.
    - destruct y as [y|].
      + assert (c = Some y).
        { destruct c as [d|]; [|exfalso; pose proof (F _ (or_introl eq_refl)); discriminate].
          destruct F as ([|u a] & b & E & N).
          - injection E as -> _. reflexivity.
          - injection E as E1 E2. pose proof (N _ (or_introl eq_refl)). congruence. }
        subst c. destruct (preserve_some y (z :: t)) as [(R & L)|(R & x & X & N)].
        * left. split; [exact R|]. intros a x E [X|X]; injection E as <-; [injection X as <-; apply Refl|apply L; exact X].
        * right. split; [exact R|]. exists y, x. split; [reflexivity|]. split; [right; exact X|exact N].
      + assert (F' : first_label (z :: t) c).
        { destruct c as [d|].
          - destruct F as ([|u a] & b & E & N); [discriminate|]. injection E as E1 E2. exists a, b. split; [exact E2|].
            intros x X. apply N. right. exact X.
          - intros x X. apply F. right. exact X. }
        rewrite preserve_none. destruct (IH z c F') as [(R & L)|(R & a & x & E & X & N)].
        * left. split; [exact R|]. intros a x E [X|X]; [discriminate|]. eapply L; eauto.
        * right. split; [exact R|]. exists a, x. split; [exact E|]. split; [right; exact X|exact N]. }
  intro l. split; [|split].
  - destruct l as [|y t]; cbn [h_preserve reduce]; split; auto; try discriminate. intro H. exfalso. exact (T t y H).
  - destruct l as [|y t]; [contradiction|]. intros _ c F. apply A. exact F.
  - induction l as [|[c|] t (c' & IH)].
    + exists None. intros x [].
    + exists (Some c). exists [], t. split; [reflexivity|]. intros x [].
    + exists c'. destruct c' as [d|].
      * destruct IH as (a & b & -> & N). exists (None :: a), b. split; [reflexivity|]. intros x [<-|X]; auto.
      * intros x [<-|X]; auto.
Qed.

(** Products of many: an empty list is refused, one label is kept, labels multiply from
    the left. *)
Theorem C29_many_product : forall c d l,
  h_multiply [] = Err TypeError /\ h_multiply [c] = Ok c /\
  forall r, label_of Bmul c d r ->
    h_multiply (c :: d :: l) = match r with Ok q => h_multiply (q :: l) | Err e => Err e end.
Proof.
  intros c d l. split; [reflexivity|]. split; [reflexivity|]. intros r H. apply C29_label_table in H. subst r.
  cbn [bhandler h_multiply reduce reduce_from]. unfold h_multiply, reduce. cbn [reduce_from].
  destruct (h_multiply2 c d); reflexivity.
Qed.

(** A comoving array that cannot be converted, one of unknown kind, one without value. *)
Example C25_exact_case :
  let lab := Some (mkcf (Some 2) (Some (1 / 2))) in
  converted false (mkarr [4] lab (Some true) true CNone) (Ok (mkarr [4 * Rpower (1 / 2) 2] lab (Some false) true CNone))
  /\ copied true (mkarr [4] lab (Some false) false CNone) (Err InvalidConversion)
  /\ asked false (mkarr [4] lab (Some false) false CNone) (Ok (mkarr [4] lab (Some false) false CNone))
  /\ converted true (mkarr [4] (Some null_cf) (Some false) true CNone) (Err TypeError).
Proof.
  cbv zeta. split; [|split; [|split]].
  - refine (cv_values false (mkarr [4] _ (Some true) true CNone) 2 (1 / 2) eq_refl _ eq_refl). discriminate.
  - apply cp_fixed; auto.
  - apply as_there; reflexivity.
  - eapply cv_no_value; cbn; eauto.
Qed.
Example C29_table_case : let c := mkcf (Some 1) (Some (1 / 2)) in let d := mkcf (Some 3) (Some (1 / 2)) in
  ~ alike c d /\ label_of Badd (Some c) (Some d) (Err ValueError)
  /\ label_of Bmul (Some c) (Some d) (Ok (Some (mkcf (Some (1 + 3)) (Some (1 / 2)))))
  /\ power_label 2 (Some c) (Some d) (Err ValueError) /\ first_label [None; Some c; Some d] (Some c).
Proof.
  cbv zeta.
  assert (P1 : Rpower (1 / 2) 1 = 1 / 2) by (apply Rpower_1; lra).
  assert (P3 : Rpower (1 / 2) 3 = 1 / 8).
  { replace 3 with (INR 3) by (cbn; lra). rewrite Rpower_pow by lra. cbn. lra. }
  assert (N : ~ alike (mkcf (Some 1) (Some (1 / 2))) (mkcf (Some 3) (Some (1 / 2)))).
  { intros (_ & H). cbn in H. rewrite P1, P3 in H. rewrite Rabs_right in H by lra. rewrite (Rabs_right (1 / 8)) in H by lra. lra. }
  split; [exact N|]. split; [apply la_same_differ; [cbn; tauto|exact N]|]. split; [apply la_mul, pr_sum|]. split.
  - eapply pw_bad; [reflexivity|]. cbn. rewrite P3. lra.
  - exists [None], [Some (mkcf (Some 3) (Some (1 / 2)))]. split; [reflexivity|]. intros x [<-|[]]. reflexivity.
Qed.

Print Assumptions C25_conversions_exact.
Print Assumptions C25_copies_exact.
Print Assumptions C25_to_exact.
Print Assumptions C28_verified_exact.
Print Assumptions C30_equality_exact.
Print Assumptions C29_label_table.
Print Assumptions C29_power_table.
Print Assumptions C29_comparison_table.
Print Assumptions C29_kept_label.
Print Assumptions C29_many_product.

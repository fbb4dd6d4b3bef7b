(** Numbers have one text each; the texts of the metadata object; reports. *)
From Coq Require Import String Ascii List Arith ZArith QArith Qabs Qround Qpower Qfield Bool Lia Lqa.
From Verif Require Import Base BaseLemmas NamesModel NamesSpec NamesProofs SubsetModel MetaModel MetaProofs InfoModel InfoSpec InfoProofs.
Import ListNotations.
Open Scope list_scope.
Open Scope Q_scope.

(** * One text for each number *)

Lemma digit_text : forall c d, digit_char c d -> forall c', digit_char c' d -> c = c'.
Proof. intros c d (i & H & ->) c' (j & K & E). apply Nat2Z.inj in E. subst j. congruence. Qed.

Lemma number_same : forall s n, number s n -> forall s', number s' n -> length s = length s' -> s = s'.
Proof.
  induction s as [|c s IH]; intros n N s' N' L; [apply number_bound in N; destruct N; congruence|].
  apply number_uncons in N. destruct N as (c1 & t & d & E & D & J). injection E as <- <-.
  apply number_uncons in N'. destruct N' as (c2 & t2 & d2 & -> & D2 & J2). cbn [length] in L. injection L as L.
  destruct J as [(-> & ->)|(k & K & ->)].
  - destruct t2; [|discriminate]. destruct J2 as [(_ & ->)|(k2 & K2 & _)]; [|apply number_bound in K2; destruct K2; congruence].
    f_equal. exact (digit_text _ _ D _ D2).
  - destruct J2 as [(-> & _)|(k2 & K2 & E)]; [apply number_bound in K; destruct K as (_ & K); destruct s; [congruence|discriminate]|].
    pose proof (number_bound _ _ K) as (B & _). pose proof (number_bound _ _ K2) as (B2 & _). rewrite <- L in *.
    pose proof (p10_pos (length s)) as P.
    assert (H : d = d2 /\ k = k2) by (apply (Z.div_mod_unique (p10 (length s))); lia). destruct H as (-> & ->).
    f_equal; [exact (digit_text _ _ D _ D2)|exact (IH _ K _ K2 L)].
Qed.

Lemma number_value : forall s n, number s n -> forall n', number s n' -> n = n'.
Proof.
  induction s as [|c s IH]; intros n N n' N'; [apply number_bound in N; destruct N; congruence|].
  apply number_uncons in N. destruct N as (c1 & t & d & E & D & J). injection E as <- <-.
  apply number_uncons in N'. destruct N' as (c2 & t2 & d2 & E & D2 & J2). injection E as <- <-.
  pose proof (digit_inj _ _ D _ D2). subst d2.
  destruct J as [(-> & ->)|(k & K & ->)], J2 as [(E & ->)|(k2 & K2 & ->)]; try (subst s).
  - reflexivity.
  - apply number_bound in K2; destruct K2; congruence.
  - apply number_bound in K; destruct K; congruence.
  - rewrite (IH _ K _ K2). reflexivity.
Qed.

Lemma canonical_zero : forall s, number s 0 -> canonical s -> s = ["0"%char].
Proof.
  intros s N C. apply number_uncons in N. destruct N as (c & t & d & -> & D & J).
  assert (d = 0%Z).
  { destruct J as [(_ & J)|(k & K & E)]; [congruence|]. pose proof (number_bound _ _ K). pose proof (digit_range _ _ D). pose proof (p10_pos (length t)). nia. }
  subst d. apply digit_zero in D. subst c. rewrite (C t eq_refl). reflexivity.
Qed.

Lemma canonical_same : forall s n s', number s n -> canonical s -> number s' n -> canonical s' -> s = s'.
Proof.
  intros s n s' N C N' C'. destruct (Z.eq_dec n 0) as [->|NZ].
  - rewrite (canonical_zero _ N C), (canonical_zero _ N' C'). reflexivity.
  - pose proof (number_bound _ _ N) as (B & E). pose proof (number_bound _ _ N') as (B' & E').
    apply (number_same s n N s' N').
    pose proof (canonical_bound _ _ N C) as L. pose proof (canonical_bound _ _ N' C') as L'.
    assert (Mono : forall a b, (p10 (a - 1) < p10 b)%Z -> (1 <= b)%nat -> (a <= b)%nat).
    { intros a b H Pb. destruct (le_lt_dec a b) as [G|G]; [exact G|exfalso].
      assert (p10 b <= p10 (a - 1))%Z by (unfold p10; apply Z.pow_le_mono_r; lia). lia. }
    assert (1 <= length s)%nat by (destruct s; [congruence|cbn [length]; lia]).
    assert (1 <= length s')%nat by (destruct s'; [congruence|cbn [length]; lia]).
    assert (length s <= length s')%nat by (apply Mono; lia). assert (length s' <= length s)%nat by (apply Mono; lia). lia.
Qed.

Lemma nearest_same : forall x m m', nearest x m -> nearest x m' -> m = m'.
Proof.
  assert (L : forall x m m', nearest x m -> nearest x m' -> (m < m')%Z -> False).
  { intros x m m' (H & Ev) (H' & Ev') LT. apply Qabs_Qle_condition in H, H'. destruct H as (H1 & H2), H' as (H1' & H2').
    assert (G : inject_Z (m + 1) <= inject_Z m') by (rewrite <- Zle_Qle; lia). rewrite inject_Z_plus in G. change (inject_Z 1) with 1 in G.
    assert (G' : inject_Z m' <= inject_Z (m + 1)) by (rewrite inject_Z_plus; change (inject_Z 1) with 1; lra).
    rewrite <- Zle_Qle in G'. assert (m' = m + 1)%Z by lia. subst m'.
    rewrite inject_Z_plus in *. change (inject_Z 1) with 1 in *.
    destruct Ev as (k & ->); [rewrite Qabs_pos by lra; lra|]. destruct Ev' as (k' & E); [rewrite Qabs_neg by lra; lra|]. lia. }
  intros x m m' H H'. destruct (Z.lt_trichotomy m m') as [G|[G|G]]; [destruct (L _ _ _ H H' G)|exact G|destruct (L _ _ _ H' H G)].
Qed.

Lemma two_places_same : forall s s' m, two_places s m -> two_places s' m -> s = s'.
Proof.
  intros s s' m (w & a & b & i & f & -> & C & N & F & M) (w' & a' & b' & i' & f' & -> & C' & N' & F' & M').
  pose proof (number_bound _ _ F) as (B & _). pose proof (number_bound _ _ F') as (B' & _). cbn [length] in B, B'. change (p10 2) with 100%Z in *.
  assert (i = i' /\ f = f') by lia. destruct H as (-> & ->). rewrite (canonical_same _ _ _ N C N' C').
  f_equal. f_equal. exact (number_same _ _ F _ F' eq_refl).
Qed.

Lemma fixed2_iff : forall x t, t = fixed2 x <->
  exists s m, nearest (Qabs x * 100) m /\ two_places s m /\ (0 <= x /\ t = s \/ x < 0 /\ t = "-"%char :: s).
Proof.
  intros x t. destruct (fixed2_spec x) as (s & m & N & T & K). split.
  - intros ->. exists s, m. auto.
  - intros (s' & m' & N' & T' & K'). pose proof (nearest_same _ _ _ N N'). subst m'. pose proof (two_places_same _ _ _ T T'). subst s'.
    destruct K as [(P & ->)|(P & ->)], K' as [(P' & ->)|(P' & ->)]; try reflexivity; lra.
Qed.

Lemma fraction_range : forall f q, fraction f q -> 0 <= q /\ q < 1.
Proof.
  intros f q H. destruct H as [|f c k N Z]; [lra|]. pose proof (number_bound _ _ N) as (B & _).
  set (l := length (f ++ [c])) in *. rewrite <- (qp_p10 l). pose proof (p10_pos l) as P.
  assert (0 < inject_Z (p10 l)) by (change 0 with (inject_Z 0); rewrite <- Zlt_Qlt; exact P). split.
  - apply Qle_shift_div_l; [exact H|]. rewrite Qmult_0_l. change 0 with (inject_Z 0). rewrite <- Zle_Qle. lia.
  - apply Qlt_shift_div_r; [exact H|]. rewrite Qmult_1_l, <- Zlt_Qlt. lia.
Qed.

Lemma last_digit : forall f c k, number (f ++ [c]) k -> c <> "0"%char -> (k mod 10 <> 0)%Z.
Proof.
  intros f c k N Z E. apply Z. apply digit_zero. destruct f as [|a f].
  - apply number_length1 in N. pose proof (digit_range _ _ N). rewrite Z.mod_small in E by lia. subst k. exact N.
  - assert (A : a :: f <> []) by discriminate. assert (B : [c] <> []) by discriminate.
    destruct (number_split _ _ _ N A B) as (_ & N2). change (p10 (length [c])) with 10%Z in N2. rewrite E in N2.
    apply number_length1 in N2. exact N2.
Qed.

Lemma fraction_same : forall f q f' q', fraction f q -> fraction f' q' -> q == q' -> f = f'.
Proof.
  assert (Zero : forall f c k, number (f ++ [c]) k -> c <> "0"%char -> ~ inject_Z k / Qpower 10 (Z.of_nat (length (f ++ [c]))) == 0).
  { intros f c k N Z E. pose proof (last_digit _ _ _ N Z) as M. apply M.
    assert (inject_Z k == 0).
    { rewrite <- (Qmult_div_r (inject_Z k) (Qpower 10 (Z.of_nat (length (f ++ [c]))))) by apply qp_nz. rewrite E. ring. }
    assert (K : inject_Z k == inject_Z 0) by exact H. apply (proj1 (inject_Z_injective _ _)) in K. rewrite K. reflexivity. }
  assert (Le : forall f c k f' c' k', number (f ++ [c]) k -> c <> "0"%char -> number (f' ++ [c']) k' -> c' <> "0"%char ->
    (k * p10 (length (f' ++ [c'])) = k' * p10 (length (f ++ [c])))%Z -> (length (f' ++ [c']) <= length (f ++ [c]))%nat).
  { intros f c k f' c' k' N Z N' Z' E. destruct (le_lt_dec (length (f' ++ [c'])) (length (f ++ [c]))) as [G|G]; [exact G|exfalso].
    apply (last_digit _ _ _ N' Z'). set (a := length (f ++ [c])) in *. set (b := length (f' ++ [c'])) in *.
    replace b with (a + S (b - a - 1))%nat in E by lia. rewrite p10_add, p10_S in E. pose proof (p10_pos a).
    assert (k' = k * p10 (b - a - 1) * 10)%Z by nia. subst k'. apply Z.mod_mul. lia. }
  intros f q f' q' H H' E. destruct H as [|f c k N Z], H' as [|f' c' k' N' Z'].
  - reflexivity.
  - destruct (Zero _ _ _ N' Z'). symmetry. exact E.
  - destruct (Zero _ _ _ N Z). exact E.
  - assert (X : (k * p10 (length (f' ++ [c'])) = k' * p10 (length (f ++ [c])))%Z).
    { apply (proj1 (inject_Z_injective _ _)). rewrite !inject_Z_mult, !qp_p10.
      set (a := Qpower 10 (Z.of_nat (length (f ++ [c])))) in *. set (b := Qpower 10 (Z.of_nat (length (f' ++ [c'])))) in *.
      assert (A : ~ a == 0) by apply qp_nz. assert (B : ~ b == 0) by apply qp_nz.
      transitivity (inject_Z k / a * (a * b)); [field; exact A|]. rewrite E. field. exact B. }
    assert (L : length (f ++ [c]) = length (f' ++ [c'])).
    { apply Nat.le_antisymm; [apply (Le _ _ _ _ _ _ N' Z' N Z); symmetry; exact X|apply (Le _ _ _ _ _ _ N Z N' Z' X)]. }
    rewrite L in X. pose proof (p10_pos (length (f' ++ [c']))). assert (k = k') by nia. subst k'.
    f_equal. exact (number_same _ _ N _ N' L).
Qed.

Lemma qp_le : forall a b, (a <= b)%Z -> Qpower 10 a <= Qpower 10 b.
Proof. intros a b H. apply Qpower_le_compat_l; [exact H|discriminate]. Qed.

Lemma significant_same : forall x m e m' e', significant x m e -> significant x m' e' -> m = m' /\ e = e'.
Proof.
  intros x m e m' e' (e0 & m0 & L & U & N & K) (e1 & m1 & L' & U' & N' & K').
  assert (e0 = e1).
  { destruct (Z.lt_trichotomy e0 e1) as [G|[G|G]]; [exfalso|exact G|exfalso].
    - assert (Qpower 10 (e0 + 1) <= Qpower 10 e1) by (apply qp_le; lia). lra.
    - assert (Qpower 10 (e1 + 1) <= Qpower 10 e0) by (apply qp_le; lia). lra. }
  subst e1. pose proof (nearest_same _ _ _ N N'). subst m1.
  destruct K as [(A & -> & ->)|(A & -> & ->)], K' as [(A' & -> & ->)|(A' & -> & ->)]; try contradiction; split; reflexivity.
Qed.

Lemma whole_and_fraction : forall i q i' q', 0 <= q /\ q < 1 -> 0 <= q' /\ q' < 1 -> inject_Z i + q == inject_Z i' + q' -> i = i' /\ q == q'.
Proof.
  intros i q i' q' (A & B) (A' & B') E.
  assert (inject_Z i < inject_Z (i' + 1)) by (rewrite inject_Z_plus; change (inject_Z 1) with 1; lra).
  assert (inject_Z i' < inject_Z (i + 1)) by (rewrite inject_Z_plus; change (inject_Z 1) with 1; lra).
  rewrite <- Zlt_Qlt in H, H0. assert (i = i') by lia. subst i'. split; [reflexivity|lra].
Qed.

Lemma written_same : forall m e t t', written m e t -> written m e t' -> t = t'.
Proof.
  intros m e t t' H H'. destruct H as [w i f q R C N F Q|c d f q s x R D F Q S N L K], H' as [w' i' f' q' R' C' N' F' Q'|c' d' f' q' s' x' R' D' F' Q' S' N' L' K'].
  - rewrite Q in Q'. apply whole_and_fraction in Q'; [|apply (fraction_range _ _ F)|apply (fraction_range _ _ F')]. destruct Q' as (-> & E).
    rewrite (canonical_same _ _ _ N C N' C'), (fraction_same _ _ _ _ F F' E). reflexivity.
  - contradiction.
  - contradiction.
  - rewrite Q in Q'. apply whole_and_fraction in Q'; [|apply (fraction_range _ _ F)|apply (fraction_range _ _ F')]. destruct Q' as (-> & E).
    rewrite (digit_text _ _ D _ D'), (fraction_same _ _ _ _ F F' E).
    assert (s = s') by (destruct S as [(-> & ?)|(-> & ?)], S' as [(-> & ?)|(-> & ?)]; try reflexivity; lia). subst s'.
    assert (x = x'); [|subst; reflexivity].
    assert (Two : forall y y', number y (Z.abs e) -> length y = 2%nat -> number y' (Z.abs e) -> (2 <= length y')%nat -> canonical y' -> y = y').
    { intros y y' Ny Ly Ny' Ly' Cy'. apply (number_same _ _ Ny _ Ny').
      destruct (Z.eq_dec (Z.abs e) 0) as [Z|Z].
      - rewrite Z in *. rewrite (canonical_zero _ Ny' Cy') in Ly'. cbn in Ly'. lia.
      - pose proof (canonical_bound _ _ Ny' Cy') as B. pose proof (number_bound _ _ Ny) as (B' & _). rewrite Ly in *. change (p10 2) with 100%Z in B'.
        destruct (le_lt_dec (length y') 2) as [G|G]; [lia|exfalso].
        assert (p10 2 <= p10 (length y' - 1))%Z by (unfold p10; apply Z.pow_le_mono_r; lia). change (p10 2) with 100%Z in H. lia. }
    destruct K as [K|K], K' as [K'|K'].
    + apply (number_same _ _ N _ N'). congruence.
    + apply Two; assumption.
    + symmetry. apply Two; assumption.
    + apply (canonical_same _ _ _ N K N' K').
Qed.

Lemma general4_iff : forall x t, t = general4 x <-> general x t.
Proof.
  intros x t. split; [intros ->; apply general4_spec|]. intro H. pose proof (general4_spec x) as G.
  destruct H as [(Z & ->)|(m & e & s & Z & S & W & K)], G as [(Z' & ->)|(m' & e' & s' & Z' & S' & W' & K')]; try contradiction; [reflexivity|].
  destruct (significant_same _ _ _ _ _ S S') as (<- & <-). pose proof (written_same _ _ _ _ W W'). subst s'.
  destruct K as [(P & ->)|(P & ->)], K' as [(P' & ->)|(P' & ->)]; try reflexivity; lra.
Qed.

(** * Attributes as text *)

Lemma group_attr_iff : forall log g p h, group_attr log (txt g) (txt p) = Ok h <-> held log g p h.
Proof.
  intros log g p h. unfold group_attr, held. split.
  - destruct (dict_get log (txt g)) as [[]|]; try discriminate. intro H. exists d. split; [reflexivity|].
    destruct (dict_get d (txt p)); [injection H as ->; reflexivity|discriminate].
  - intros (d & -> & ->). reflexivity.
Qed.

Lemma format_string_iff : forall log g p s, format_string log (txt g) (txt p) = Ok s <-> held_bytes log g p s.
Proof.
  intros log g p s. unfold format_string, held_bytes. rewrite <- group_attr_iff. split.
  - destruct (group_attr log (txt g) (txt p)) as [h|]; cbn [bind]; [|discriminate]. destruct h; try discriminate. cbn [decode_bytes]. congruence.
  - intros ->. reflexivity.
Qed.

Lemma first_item_number : forall h x, first_item h = Ok (VNum x) <-> first_number h x.
Proof.
  intros h x. unfold first_item, item_at, first_number. split.
  - destruct h as [[|y l]|y|[|c s]|[|c s]|[|c s]]; cbn [nth_error option_map]; intro H; try discriminate; injection H as <-.
    + left. eexists. reflexivity.
    + right. eexists _, _. split; reflexivity.
  - intros [(l & ->)|(c & s & -> & ->)]; reflexivity.
Qed.

Lemma format_float_iff : forall log p t, format_float log (txt p) = Ok t <-> held_float log p t.
Proof.
  intros log p t. unfold format_float, held_float. split.
  - destruct (group_attr log (txt "hydro_scheme") (txt p)) as [h|] eqn:H; cbn [bind]; [|discriminate]. apply group_attr_iff in H.
    destruct (first_item h) as [v|] eqn:F; cbn [bind]; [|discriminate]. destruct v; try discriminate. intro E. injection E as <-.
    apply first_item_number in F. destruct (proj1 (fixed2_iff x (fixed2 x)) eq_refl) as (s & m & K). exists h, x, s, m. tauto.
  - intros (h & x & s & m & H & F & K). apply group_attr_iff in H. apply first_item_number in F. rewrite H. cbn [bind]. rewrite F. cbn [bind].
    f_equal. symmetry. apply fixed2_iff. exists s, m. exact K.
Qed.

Lemma bind_iff : forall A B (r : res A) (f : A -> res B) b, bind r f = Ok b <-> exists a, r = Ok a /\ f a = Ok b.
Proof.
  intros A B r f b. destruct r as [a|e]; cbn [bind]; split.
  - intro H. exists a. split; [reflexivity|exact H].
  - intros (a' & H & K). congruence.
  - discriminate.
  - intros (a' & H & _). discriminate.
Qed.

Lemma ok_iff : forall A (a b : A), Ok a = Ok b <-> b = a.
Proof. intros A a b. split; congruence. Qed.

(** [int] towards zero. *)
Lemma truncate_whole : forall x, whole_part x (truncate x).
Proof.
  intros [n d]. unfold whole_part, truncate. cbn [Qnum Qden].
  pose proof (Z.quot_rem' n (Z.pos d)) as E.
  destruct (Z_le_gt_dec 0 n) as [P|P].
  - left. split; [unfold Qle; cbn; lia|]. pose proof (Z.rem_bound_pos n (Z.pos d) P eq_refl) as R.
    unfold Qle, Qlt, inject_Z, Qplus. cbn [Qnum Qden]. lia.
  - right. split; [unfold Qlt; cbn; lia|]. assert (P' : (0 < - n)%Z) by lia.
    pose proof (Z.rem_bound_pos (- n) (Z.pos d)) as R. rewrite Z.rem_opp_l in R by lia.
    unfold Qle, Qlt, inject_Z, Qminus, Qplus, Qopp. cbn [Qnum Qden]. lia.
Qed.

Lemma whole_part_same : forall x z z', whole_part x z -> whole_part x z' -> z = z'.
Proof.
  intros x z z' [(A & B & C)|(A & B & C)] [(A' & B' & C')|(A' & B' & C')]; try lra.
  - assert (inject_Z z < inject_Z (z' + 1)) by (rewrite inject_Z_plus; change (inject_Z 1) with 1; lra).
    assert (inject_Z z' < inject_Z (z + 1)) by (rewrite inject_Z_plus; change (inject_Z 1) with 1; lra).
    rewrite <- Zlt_Qlt in H, H0. lia.
  - assert (inject_Z z < inject_Z (z' + 1)) by (rewrite inject_Z_plus; change (inject_Z 1) with 1; lra).
    assert (inject_Z z' < inject_Z (z + 1)) by (rewrite inject_Z_plus; change (inject_Z 1) with 1; lra).
    rewrite <- Zlt_Qlt in H, H0. lia.
Qed.

Lemma show_int_iff : forall z t, t = show_int z <-> integer z t.
Proof.
  intros z t. unfold show_int, integer. destruct (dec_spec (Z.abs z)) as (N & C); [lia|].
  destruct (z <? 0)%Z eqn:S; [apply Z.ltb_lt in S|apply Z.ltb_ge in S]; split.
  - intros ->. exists (dec (Z.abs z)). split; [exact C|]. split; [exact N|]. right. split; [exact S|reflexivity].
  - intros (s & C' & N' & [(P & _)|(_ & ->)]); [lia|]. rewrite (canonical_same _ _ _ N' C' N C). reflexivity.
  - intros ->. exists (dec (Z.abs z)). split; [exact C|]. split; [exact N|]. left. split; [exact S|reflexivity].
  - intros (s & C' & N' & [(_ & ->)|(P & _)]); [|lia]. rewrite (canonical_same _ _ _ N' C' N C). reflexivity.
Qed.

Lemma get_int_iff : forall int_of_text log p z, get_int int_of_text log (txt p) = Ok z <-> held_int int_of_text log p z.
Proof.
  intros int_of_text log p z. unfold get_int, held_int. split.
  - destruct (group_attr log (txt "hydro_scheme") (txt p)) as [h|] eqn:H; cbn [bind]; [|discriminate]. apply group_attr_iff in H.
    destruct (first_item h) as [v|] eqn:F; cbn [bind]; [|discriminate]. intro K. exists h. split; [exact H|].
    destruct v; try discriminate.
    + destruct h0; try discriminate. right. exists s. split; [|exact K].
      unfold first_item, item_at in F. destruct h as [[|y l]|y|[|c r]|[|c r]|[|c r]]; cbn [nth_error option_map] in F; try discriminate; injection F as <-.
      * left. eexists _, _. split; reflexivity.
      * right. eexists. reflexivity.
    + injection K as <-. left. exists x. split; [apply first_item_number; exact F|apply truncate_whole].
  - intros (h & H & K). apply group_attr_iff in H. rewrite H. cbn [bind]. destruct K as [(x & F & W)|(s & F & I)].
    + apply first_item_number in F. rewrite F. cbn [bind]. f_equal. apply (whole_part_same x); [apply truncate_whole|exact W].
    + destruct F as [(c & r & -> & ->)|(l & ->)]; cbn; exact I.
Qed.

(** * Lists of words *)

Lemma glued_join : forall sep ws n, glued sep ws n -> join sep ws = n.
Proof. intros sep ws n H. apply glued_iff; [destruct H; discriminate|exact H]. Qed.

Lemma listed_iff : forall sep l t, join sep l = t <-> listed sep l t.
Proof.
  intros sep l t. unfold listed. destruct l as [|w l].
  - cbn [join]. split; [intro; left; split; congruence|]. intros [(_ & ->)|H]; [reflexivity|inversion H].
  - rewrite glued_iff by discriminate. split; [right; assumption|]. intros [(H & _)|H]; [discriminate|exact H].
Qed.

(** * Reports *)

Lemma shown_iff : forall u v t, show4 u v = Ok t <-> shown u v t.
Proof.
  intros u v t. split.
  - destruct v as [h|x|x d| | | | | | | | | | | | | ]; cbn [show4]; try discriminate.
    + destruct h; discriminate.
    + intro H. injection H as <-. constructor. apply general4_iff. reflexivity.
    + destruct d; try discriminate. intro H. injection H as <-. constructor. apply general4_iff. reflexivity.
  - intros [x s G|x s G]; apply general4_iff in G; subst s; reflexivity.
Qed.

Lemma counted_ok : forall u log x attr people t, (txt "n_" ++ x)%list = txt attr ->
  replace_char underscore " "%char (title_from false x) = txt people -> counted log attr people t -> count u log x = Ok t.
Proof.
  intros u log x attr people t E F (v & n & G & -> & K). unfold count. rewrite E, F. apply general4_iff in G. subst n.
  destruct K as [->|(-> & ->)]; reflexivity.
Qed.

Lemma counts_ok : forall u log counts, Forall2 (fun ap w => counted log (fst ap) (snd ap) w) people_names counts ->
  all_ok (map (count u log) (map snd particle_name_underscores)) = Ok counts.
Proof.
  intros u log counts H. apply all_ok_spec. unfold people_names in H.
  repeat match goal with K : Forall2 _ (_ :: _) _ |- _ => inversion K; clear K; subst end.
  match goal with K : Forall2 _ [] _ |- _ => inversion K; clear K; subst end. cbn [fst snd] in *. cbn [particle_name_underscores map snd].
  repeat (f_equal; [eapply counted_ok; [| |eassumption]; reflexivity|]).
  f_equal. eapply counted_ok; [| |eassumption]; reflexivity.
Qed.

Lemma flag_truth : forall h b, flag h b -> truth h = Ok b.
Proof.
  assert (Z : forall x, is_zero x = true <-> x == 0) by (intro x; apply Qeq_bool_iff).
  assert (NZ : forall x, ~ x == 0 -> is_zero x = false).
  { intros x H. destruct (is_zero x) eqn:E; [|reflexivity]. apply Z in E. contradiction. }
  intros h b [x H|x H|x H|x H]; cbn [truth]; rewrite ?NZ by exact H; try reflexivity.
  - rewrite (proj2 (Z x) H). reflexivity.
  - rewrite (proj2 (Z x) H). reflexivity.
Qed.

Lemma active_ok : forall d l, switched_on d l -> active d = Ok l.
Proof.
  intros d l H. induction H as [|n h d l F H IH|n h d l F H IH]; [reflexivity| |]; cbn [active]; rewrite (flag_truth _ _ F), IH; reflexivity.
Qed.

Lemma scheme_ok : forall show log g s, scheme_name log g s -> scheme show log (txt g) = Ok s.
Proof.
  intros show log g s (d & E & K). unfold scheme, the_dict. rewrite E. cbn [bind]. destruct K as [(h & F & T)|(F & ->)]; rewrite F.
  - destruct T as [->| ->]; reflexivity.
  - reflexivity.
Qed.

Lemma starts_firstn : forall w s, starts_with w s = true <-> firstn (length w) s = w.
Proof.
  intros w s. rewrite starts_iff'. split.
  - intros (r & ->). rewrite firstn_app, Nat.sub_diag, firstn_all. apply app_nil_r.
  - intro H. exists (skipn (length w) s). rewrite <- H at 1. symmetry. apply firstn_skipn.
Qed.

Lemma replace_model_small : forall n, small_model n (replace_model n).
Proof.
  assert (L : forall n, length (replace_model n) = length n) by (induction n as [|c n IH]; cbn [replace_model length]; [reflexivity|f_equal; exact IH]).
  intro n. split; [apply L|]. induction n as [|c n IH]; intros i d H; [destruct i; discriminate|].
  destruct i as [|i].
  - cbn [nth_error skipn] in *. injection H as <-. cbn [replace_model]. pose proof (starts_firstn (txt "Model") (c :: n)) as S.
    change (length (txt "Model")) with 5%nat in S. destruct (starts_with (txt "Model") (c :: n)).
    + split; [reflexivity|]. intro K. destruct K. apply S. reflexivity.
    + split; [|reflexivity]. intro K. apply S in K. discriminate.
  - cbn [nth_error skipn] in *. cbn [replace_model nth_error]. apply IH. exact H.
Qed.

Lemma small_model_iff : forall n t, t = replace_model n <-> small_model n t.
Proof.
  intros n t. split; [intros ->; apply replace_model_small|]. intros (L & K). destruct (replace_model_small n) as (L' & K').
  apply nth_error_ext'; [congruence|]. intro j. destruct (nth_error n j) as [c|] eqn:E.
  - destruct (K j c E) as (A & B), (K' j c E) as (A' & B').
    destruct (list_eq_dec ascii_dec (firstn 5 (skipn j n)) (txt "Model")) as [Y|N]; [rewrite A, A' by exact Y|rewrite B, B' by exact N]; reflexivity.
  - apply nth_error_None in E. rewrite (proj2 (nth_error_None t j)), (proj2 (nth_error_None (replace_model n) j)) by lia. reflexivity.
Qed.

Lemma lines_ok : forall show d l, scheme_lines d l ->
  flat_map (fun nh => if name_eqb (fst nh) (txt "NamedColumns") then []
                      else [Ok (replace_model (fst nh) ++ txt ": " ++ decode show (VHeader (snd nh)))]) d = map Ok l.
Proof.
  intros show d l H. induction H as [|h d l H IH|n h d l t s N M T H IH]; [reflexivity| |]; cbn [flat_map fst snd].
  - rewrite (proj2 (name_eqb_iff _ _) eq_refl). exact IH.
  - destruct (name_eqb n (txt "NamedColumns")) eqn:E; [apply name_eqb_iff in E; contradiction|].
    rewrite IH. apply small_model_iff in M. subst t. destruct T as [->| ->]; reflexivity.
Qed.

Lemma report_ok : forall u show wrap k log lines, k = KSnapshot \/ k = KLineOfSight -> about_file u show wrap log lines ->
  report show u wrap k log = map Ok lines.
Proof.
  intros u show wrap k log lines K (run & date & policies & act & kind & selection & counts & numbers & compiler & code & z & a & t & cosmology
    & gravity & hydro & subgrid & schemes & R & D & P & T & S & C & N & Co & Cd & St & Cs & Gr & Hy & Sg & Sc & ->).
  destruct P as (pd & pl & P1 & P2 & P3 & ->). destruct N as (w & N1 & ->).
  destruct St as (vz & va & vt & Z1 & A1 & T1 & Z2 & A2 & T2). apply shown_iff in Z2, A2, T2.
  apply listed_iff in P3. apply glued_join in N1. apply active_ok in P2.
  apply (counts_ok u) in C. apply (scheme_ok show) in Gr, Hy. apply (lines_ok show) in Sc.
  unfold report, attr, the_dict. rewrite R, D, P1, T, S, Z1, A1, T1, Cs, Sg, C, Gr, Hy, Sc. cbn [bind]. rewrite P2. cbn [bind].
  rewrite P3, N1, Z2. cbn [bind]. rewrite A2. cbn [bind]. rewrite T2. cbn [bind wrapped decode].
  replace (match k with KSnapshot | KLineOfSight => compiler_info log | _ => Err AttributeError end) with (Ok (A := name) compiler) by (destruct K as [->| ->]; symmetry; exact Co).
  replace (match k with KSnapshot | KLineOfSight => code_info log | _ => Err AttributeError end) with (Ok (A := name) code) by (destruct K as [->| ->]; symmetry; exact Cd).
  rewrite !map_app. cbn [map app]. reflexivity.
Qed.

Lemma emit_ok : forall l, emit (map Ok l) = (l, None).
Proof. induction l as [|x l IH]; [reflexivity|]. cbn [map emit]. rewrite IH. reflexivity. Qed.

Lemma emit_err : forall l e, In (Err e) l -> exists e', snd (emit l) = Some e'.
Proof.
  induction l as [|x l IH]; intros e H; [destruct H|]. destruct H as [->|H].
  - exists e. reflexivity.
  - destruct x as [s|e0]; cbn [emit]; [|exists e0; reflexivity]. destruct (IH e H) as (e' & E). destruct (emit l) as [p o]. cbn [snd] in *. exists e'. exact E.
Qed.

(** The lines before the first failure. *)
Lemma emit_stop : forall a e b, emit (map Ok a ++ Err e :: b) = (a, Some e).
Proof. induction a as [|x a IH]; intros e b; [reflexivity|]. cbn [map app emit]. rewrite IH. reflexivity. Qed.

(** * Files *)

Lemma validate_ok : forall f, validate_file f = Ok tt <-> swift_file f.
Proof.
  intro f. unfold validate_file, swift_file. split.
  - destruct (dict_get (mf_groups f) (txt "Code")) as [g|]; [|discriminate]. intro H. exists g. split; [reflexivity|].
    destruct (dict_get (gi_attrs g) (txt "Code")) as [h|]; [|discriminate].
    destruct h as [[|x [|y l]]|x|s|s|[|x [|y l]]]; try discriminate. destruct (name_eqb s (txt "SWIFT")) eqn:E; [|discriminate].
    apply name_eqb_iff in E. subst s. reflexivity.
  - intros (g & -> & ->). rewrite (proj2 (name_eqb_iff _ _) eq_refl). reflexivity.
Qed.

Lemma validate_odd : forall f, validate_file f = Err ValueError <-> odd_file f.
Proof.
  intro f. unfold validate_file, odd_file. split.
  - destruct (dict_get (mf_groups f) (txt "Code")) as [g|]; [|discriminate].
    destruct (dict_get (gi_attrs g) (txt "Code")) as [h|] eqn:E; [|discriminate]. intro H. exists g, h. split; [reflexivity|]. split; [exact E|].
    destruct h as [[|x [|y l]]|x|s|s|[|x [|y l]]]; try discriminate.
    + left. exists []. split; [reflexivity|discriminate].
    + left. exists (x :: y :: l). split; [reflexivity|discriminate].
    + destruct (name_eqb s (txt "SWIFT")); discriminate.
    + right. exists []. split; [reflexivity|discriminate].
    + right. exists (x :: y :: l). split; [reflexivity|discriminate].
  - intros (g & h & -> & -> & K). destruct K as [(l & -> & L)|(l & -> & L)]; destruct l as [|x [|y l]]; try reflexivity; cbn in L; congruence.
Qed.

Lemma validate_kinds : forall f, validate_file f = Ok tt \/ validate_file f = Err OSErr \/ validate_file f = Err ValueError.
Proof.
  intro f. unfold validate_file. destruct (dict_get (mf_groups f) (txt "Code")) as [g|]; [|tauto].
  destruct (dict_get (gi_attrs g) (txt "Code")) as [h|]; [|tauto].
  destruct h as [[|x [|y l]]|x|s|s|[|x [|y l]]]; try tauto. destruct (name_eqb s (txt "SWIFT")); tauto.
Qed.

Lemma validate_bad : forall f, validate_file f = Err OSErr <-> ~ swift_file f /\ ~ odd_file f.
Proof.
  intro f. rewrite <- validate_ok, <- validate_odd. destruct (validate_kinds f) as [->|[->| ->]]; split; intros; try discriminate; try tauto; split; discriminate.
Qed.

Lemma first_invalid_skip : forall pre l, Forall valid_file pre -> first_invalid (pre ++ l) = first_invalid l.
Proof.
  intros pre l H. induction H as [|[n f] pre (g & E & V) H IH]; [reflexivity|]. cbn [snd] in E. subst f.
  cbn [app first_invalid]. apply validate_ok in V. rewrite V. exact IH.
Qed.

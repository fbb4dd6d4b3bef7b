(** Numbers as text: [fixed2] and [general4]. *)
From Coq Require Import String Ascii List Arith ZArith QArith Qabs Qround Qpower Qfield Bool Lia Lqa.
From Verif Require Import Base NamesModel MetaModel InfoModel InfoSpec.
Import ListNotations.
Open Scope list_scope.
Open Scope Q_scope.

(** * Digits *)

Lemma digit_ok : forall d, (0 <= d < 10)%Z -> digit_char (digit d) d.
Proof.
  intros d H. exists (Z.to_nat d). split; [|lia].
  assert (K : exists n, (n < 10)%nat /\ d = Z.of_nat n) by (exists (Z.to_nat d); lia). destruct K as (n & L & ->).
  do 10 (destruct n as [|n]; [reflexivity|]). lia.
Qed.

Lemma digit_range : forall c d, digit_char c d -> (0 <= d < 10)%Z.
Proof.
  intros c d (i & H & ->). assert (i < 10)%nat by (apply (proj1 (nth_error_Some (txt "0123456789") i)); congruence). lia.
Qed.

Lemma digit_zero : forall c, digit_char c 0 <-> c = "0"%char.
Proof.
  intro c. split.
  - intros (i & H & E). assert (i = 0)%nat by lia. subst i. cbn in H. congruence.
  - intros ->. exists 0%nat. split; reflexivity.
Qed.

Lemma digit_inj : forall c d, digit_char c d -> forall d', digit_char c d' -> d = d'.
Proof.
  intros c d (i & H & ->) d' (j & K & ->). f_equal.
  assert (N : NoDup (txt "0123456789")) by (cbn; repeat constructor; cbn; intuition discriminate).
  rewrite NoDup_nth_error in N. apply N; [|congruence]. apply nth_error_Some. congruence.
Qed.

Definition p10 (n : nat) : Z := (10 ^ Z.of_nat n)%Z.
Lemma p10_pos : forall n, (0 < p10 n)%Z.
Proof. intro n. unfold p10. apply Z.pow_pos_nonneg; lia. Qed.
Lemma p10_S : forall n, p10 (S n) = (10 * p10 n)%Z.
Proof. intro n. unfold p10. rewrite Nat2Z.inj_succ, Z.pow_succ_r by lia. reflexivity. Qed.
Lemma p10_add : forall a b, p10 (a + b) = (p10 a * p10 b)%Z.
Proof. intros. unfold p10. rewrite Nat2Z.inj_add, Z.pow_add_r by lia. reflexivity. Qed.

Lemma number_app : forall b k, number b k -> forall a i, number a i -> number (a ++ b) (i * p10 (length b) + k)%Z.
Proof.
  intros b k H. induction H as [c d D|s n c d H IH D]; intros a i A.
  - replace (i * p10 (length [c]) + d)%Z with (10 * i + d)%Z by (cbn [length]; unfold p10; change (10 ^ Z.of_nat 1)%Z with 10%Z; ring).
    apply number_more; assumption.
  - rewrite app_assoc, app_length. cbn [length].
    replace (i * p10 (length s + 1) + (10 * n + d))%Z with (10 * (i * p10 (length s) + n) + d)%Z
      by (rewrite p10_add; change (p10 1) with 10%Z; ring).
    apply number_more; [apply IH; exact A|exact D].
Qed.

Lemma number_bound : forall s n, number s n -> (0 <= n < p10 (length s))%Z /\ s <> [].
Proof.
  intros s n H. induction H as [c d D|s n c d H (IH & _) D].
  - split; [|discriminate]. apply digit_range in D. exact D.
  - split; [|destruct s; discriminate]. apply digit_range in D. rewrite app_length. cbn [length]. rewrite Nat.add_1_r, p10_S. lia.
Qed.

(** Numbers can be read one digit after the other from the left. *)
Lemma number_cons : forall s n, number s n -> forall c d, digit_char c d -> number (c :: s) (d * p10 (length s) + n)%Z.
Proof. intros s n H c d D. apply (number_app s n H [c] d). constructor. exact D. Qed.

Lemma number_uncons : forall s n, number s n -> exists c t d, s = c :: t /\ digit_char c d
  /\ (t = [] /\ n = d \/ exists k, number t k /\ n = (d * p10 (length t) + k)%Z).
Proof.
  intros s n H. induction H as [c d D|s n c d H IH D].
  - exists c, [], d. split; [reflexivity|]. split; [exact D|]. left. split; reflexivity.
  - destruct IH as (c' & t & d' & -> & D' & [(-> & ->)|(k & K & ->)]).
    + exists c', [c], d'. split; [reflexivity|]. split; [exact D'|]. right. exists d. split; [constructor; exact D|].
      cbn [length]. change (p10 1) with 10%Z. ring.
    + exists c', (t ++ [c]), d'. split; [reflexivity|]. split; [exact D'|]. right. exists (10 * k + d)%Z. split; [constructor; assumption|].
      rewrite app_length. cbn [length]. rewrite Nat.add_1_r, p10_S. ring.
Qed.

Lemma number_split : forall a b n, number (a ++ b) n -> a <> [] -> b <> [] ->
  number a (n / p10 (length b)) /\ number b (n mod p10 (length b))%Z.
Proof.
  induction a as [|c a IH]; intros b n H A B; [congruence|].
  apply number_uncons in H. destruct H as (c' & t & d & E & D & K). injection E as <- <-.
  destruct K as [(K & _)|(k & K & ->)]; [destruct a; [contradiction|discriminate]|].
  destruct a as [|c2 a].
  - cbn [app] in *. pose proof (number_bound _ _ K) as (Bk & _). pose proof (p10_pos (length b)).
    rewrite Z.div_add_l by lia. rewrite (Z.div_small k) by lia. rewrite Z.add_0_r, (Z.add_comm _ k), Z.mod_add, Z.mod_small by lia.
    split; [constructor; exact D|exact K].
  - destruct (IH b k K) as (I1 & I2); [discriminate|exact B|]. pose proof (p10_pos (length b)).
    rewrite app_length, p10_add, Z.mul_assoc. rewrite Z.div_add_l by lia. rewrite (Z.add_comm _ k), Z.mod_add by lia.
    split; [|exact I2]. apply number_cons; assumption.
Qed.

Lemma number_length1 : forall c n, number [c] n -> digit_char c n.
Proof.
  intros c n H. apply number_uncons in H. destruct H as (c' & t & d & E & D & J). injection E as <- <-. destruct J as [(_ & ->)|(k & K & _)].
  - exact D.
  - apply number_bound in K. destruct K as (_ & K). congruence.
Qed.

(** ** [dec] *)

Lemma digits_spec : forall fuel n acc, (0 <= n)%Z -> (Z.log2 n < Z.of_nat fuel)%Z ->
  exists s, digits fuel n acc = s ++ acc /\ number s n /\ canonical s.
Proof.
  induction fuel as [|f IH]; intros n acc P L; [pose proof (Z.log2_nonneg n); lia|].
  cbn [digits]. destruct (n <? 10)%Z eqn:E.
  - apply Z.ltb_lt in E. exists [digit n]. split; [reflexivity|]. split; [constructor; apply digit_ok; lia|].
    intros t T. injection T as _ ->. reflexivity.
  - apply Z.ltb_ge in E.
    assert (Q : (1 <= n / 10)%Z) by (apply Z.div_le_lower_bound; lia).
    destruct (IH (n / 10)%Z (digit (n mod 10) :: acc)) as (s & S & N & C).
    + lia.
    + assert (2 * (n / 10) <= n)%Z by (pose proof (Z.mul_div_le n 10); lia).
      assert (Z.log2 (2 * (n / 10)) <= Z.log2 n)%Z by (apply Z.log2_le_mono; exact H).
      rewrite Z.log2_double in H0 by lia. lia.
    + exists (s ++ [digit (n mod 10)]). rewrite <- app_assoc. split; [exact S|]. split.
      * replace n with (10 * (n / 10) + n mod 10)%Z at 2 by (symmetry; apply Z.div_mod; lia).
        constructor; [exact N|]. apply digit_ok. apply Z.mod_pos_bound. lia.
      * intros t T. exfalso. apply number_uncons in N. destruct N as (c & u & d & -> & D & K). cbn [app] in T. injection T as -> _.
        specialize (C u eq_refl). subst u. assert (d = 0%Z) by (apply (digit_inj _ _ D); apply digit_zero; reflexivity).
        destruct K as [(_ & K)|(k & K & _)]; [lia|]. apply number_bound in K. destruct K as (_ & K). congruence.
Qed.

Lemma dec_spec : forall n, (0 <= n)%Z -> number (dec n) n /\ canonical (dec n).
Proof.
  intros n H. unfold dec. destruct (digits_spec (S (Z.to_nat (Z.log2 n))) n [] H) as (s & E & N & C).
  - pose proof (Z.log2_nonneg n). lia.
  - rewrite E, app_nil_r. split; assumption.
Qed.

Lemma canonical_bound : forall s n, number s n -> canonical s -> (0 < n)%Z -> (p10 (length s - 1) <= n)%Z.
Proof.
  intros s n N C P. apply number_uncons in N. destruct N as (c & t & d & -> & D & [(-> & ->)|(k & K & ->)]).
  - cbn. unfold p10. cbn. lia.
  - cbn [length]. rewrite Nat.sub_succ, Nat.sub_0_r. pose proof (number_bound _ _ K) as (B & E). pose proof (digit_range _ _ D) as R.
    assert (d <> 0%Z).
    { intro. subst d. apply digit_zero in D. subst c. specialize (C t eq_refl). contradiction. }
    pose proof (p10_pos (length t)). nia.
Qed.

Lemma dec_length : forall n, (0 < n)%Z -> (p10 (length (dec n) - 1) <= n < p10 (length (dec n)))%Z /\ (1 <= length (dec n))%nat.
Proof.
  intros n P. destruct (dec_spec n) as (N & C); [lia|]. pose proof (number_bound _ _ N) as (B & E).
  split; [split; [apply canonical_bound; assumption|apply B]|]. destruct (dec n); [congruence|cbn [length]; lia].
Qed.

(** * Rounding *)

Lemma half_even_nearest : forall x, nearest x (half_even x).
Proof.
  intro x. unfold half_even, nearest. pose proof (Qfloor_le x) as L. pose proof (Qlt_floor x) as U.
  set (f := Qfloor x) in *. rewrite inject_Z_plus in U. change (inject_Z 1) with 1 in U.
  destruct (Qcompare (x - inject_Z f) (1 # 2)) eqn:E.
  - apply Qeq_alt in E. destruct (Z.even f) eqn:Ev.
    + split; [rewrite Qabs_pos by lra; lra|]. intros _. apply Z.even_spec. exact Ev.
    + rewrite inject_Z_plus. change (inject_Z 1) with 1. split; [rewrite Qabs_neg by lra; lra|]. intros _.
      apply Z.even_spec. rewrite Z.even_add, Ev. reflexivity.
  - apply Qlt_alt in E. rewrite Qabs_pos by lra. split; [lra|]. intro. lra.
  - apply Qgt_alt in E. rewrite inject_Z_plus. change (inject_Z 1) with 1. rewrite Qabs_neg by lra. split; [lra|]. intro. lra.
Qed.

Lemma nearest_nonneg : forall x m, 0 <= x -> nearest x m -> (0 <= m)%Z.
Proof.
  intros x m P (H & _). apply Qabs_Qle_condition in H. destruct H as (H1 & H2).
  assert (inject_Z (-1) < inject_Z m) by (change (inject_Z (-1)) with (-(1)); lra). rewrite <- Zlt_Qlt in H. lia.
Qed.

Lemma nearest_le : forall x m k, nearest x m -> x <= inject_Z k -> (m <= k)%Z.
Proof.
  intros x m k (H & _) L. apply Qabs_Qle_condition in H. destruct H as (H1 & H2).
  assert (inject_Z m < inject_Z (k + 1)) by (rewrite inject_Z_plus; change (inject_Z 1) with 1; lra). rewrite <- Zlt_Qlt in H. lia.
Qed.
Lemma nearest_ge : forall x m k, nearest x m -> inject_Z k <= x -> (k <= m)%Z.
Proof.
  intros x m k (H & _) L. apply Qabs_Qle_condition in H. destruct H as (H1 & H2).
  assert (inject_Z (k - 1) < inject_Z m) by (unfold Z.sub; rewrite inject_Z_plus, inject_Z_opp; change (inject_Z 1) with 1; lra). rewrite <- Zlt_Qlt in H. lia.
Qed.

(** * [4.2f] *)

Lemma fixed2_spec : forall x, exists s m, nearest (Qabs x * 100) m /\ two_places s m
  /\ (0 <= x /\ fixed2 x = s \/ x < 0 /\ fixed2 x = "-"%char :: s).
Proof.
  intro x. set (m := half_even (Qabs x * (100 # 1))).
  assert (P : (0 <= m)%Z) by (apply (nearest_nonneg (Qabs x * 100)); [pose proof (Qabs_nonneg x); lra|apply half_even_nearest]).
  set (a := digit (m / 10 mod 10)). set (b := digit (m mod 10)).
  exists (dec (m / 100) ++ ["."%char; a; b]), m. split; [apply half_even_nearest|].
  destruct (dec_spec (m / 100)) as (N & C); [apply Z.div_pos; lia|]. split.
  - exists (dec (m / 100)), a, b, (m / 100)%Z, (10 * (m / 10 mod 10) + m mod 10)%Z. split; [reflexivity|]. split; [exact C|]. split; [exact N|]. split.
    + apply (number_more [a]); [constructor; apply digit_ok; apply Z.mod_pos_bound; lia|apply digit_ok; apply Z.mod_pos_bound; lia].
    + replace (m / 100)%Z with (m / 10 / 10)%Z by (rewrite Z.div_div by lia; reflexivity).
      pose proof (Z.div_mod m 10). pose proof (Z.div_mod (m / 10) 10). lia.
  - assert (K : forall s, (1 <= length s)%nat -> pad 4 (s ++ ["."%char; a; b]) = s ++ ["."%char; a; b]).
    { intros s L. unfold pad. rewrite app_length. cbn [length]. replace (4 - (length s + 3))%nat with 0%nat by lia. reflexivity. }
    pose proof (number_bound _ _ N) as (_ & E). assert (L : (1 <= length (dec (m / 100)))%nat) by (destruct (dec (m / 100)); [congruence|cbn [length]; lia]).
    unfold fixed2, sign. fold m a b. destruct (Qle_bool 0 x) eqn:Sg.
    + left. apply Qle_bool_iff in Sg. split; [exact Sg|]. cbn [app]. apply (K (dec (m / 100))). exact L.
    + right. split.
      * apply Qnot_le_lt. intro H. apply Qle_bool_iff in H. congruence.
      * change (txt "-" ++ dec (m / 100) ++ txt "." ++ [a; b]) with (("-"%char :: dec (m / 100)) ++ ["."%char; a; b]).
        rewrite K by (cbn [length]; lia). reflexivity.
Qed.

(** * [.4g] *)

Lemma ten_nz : ~ 10 == 0.
Proof. discriminate. Qed.
Lemma qp_pos : forall e, 0 < Qpower 10 e.
Proof. intro e. apply Qpower_0_lt. reflexivity. Qed.
Lemma qp_nz : forall e, ~ Qpower 10 e == 0.
Proof. intro e. pose proof (qp_pos e). lra. Qed.
Lemma qp_add : forall a b, Qpower 10 (a + b) == Qpower 10 a * Qpower 10 b.
Proof. intros. apply Qpower_plus. exact ten_nz. Qed.
Lemma qp_S : forall a, Qpower 10 (a + 1) == Qpower 10 a * 10.
Proof. intros. rewrite qp_add. reflexivity. Qed.
Lemma qp_p10 : forall n, inject_Z (p10 n) == Qpower 10 (Z.of_nat n).
Proof.
  intro n. induction n as [|n IH]; [reflexivity|]. rewrite p10_S, inject_Z_mult, IH, Nat2Z.inj_succ, <- Z.add_1_r, qp_S. change (inject_Z 10) with 10. ring.
Qed.

Lemma exponent_spec : forall x, 0 < x -> Qpower 10 (exponent x) <= x /\ x < Qpower 10 (exponent x + 1).
Proof.
  intros [n d] P. unfold exponent. cbn [Qnum Qden].
  assert (Pn : (0 < n)%Z) by (unfold Qlt in P; cbn in P; lia).
  destruct (dec_length n Pn) as (Bn & Ln). destruct (dec_length (Z.pos d)) as (Bd & Ld); [lia|].
  set (a := length (dec n)) in *. set (b := length (dec (Z.pos d))) in *.
  set (e := (Z.of_nat a - Z.of_nat b)%Z).
  assert (X : n # d == inject_Z n / inject_Z (Z.pos d)) by apply Qmake_Qdiv.
  assert (Dp : 0 < inject_Z (Z.pos d)) by reflexivity.
  (* 10^(a-1) <= n < 10^a and 10^(b-1) <= d < 10^b *)
  assert (N1 : Qpower 10 (Z.of_nat a - 1) <= inject_Z n).
  { replace (Z.of_nat a - 1)%Z with (Z.of_nat (a - 1)) by lia. rewrite <- qp_p10, <- Zle_Qle. apply Bn. }
  assert (N2 : inject_Z n < Qpower 10 (Z.of_nat a)) by (rewrite <- qp_p10, <- Zlt_Qlt; apply Bn).
  assert (D1 : Qpower 10 (Z.of_nat b - 1) <= inject_Z (Z.pos d)).
  { replace (Z.of_nat b - 1)%Z with (Z.of_nat (b - 1)) by lia. rewrite <- qp_p10, <- Zle_Qle. apply Bd. }
  assert (D2 : inject_Z (Z.pos d) < Qpower 10 (Z.of_nat b)) by (rewrite <- qp_p10, <- Zlt_Qlt; apply Bd).
  assert (Lo : Qpower 10 (e - 1) <= n # d).
  { rewrite X. apply Qle_shift_div_l; [exact Dp|]. apply Qle_trans with (Qpower 10 (e - 1) * Qpower 10 (Z.of_nat b)).
    - rewrite !(Qmult_comm (Qpower 10 (e - 1))). apply Qmult_le_compat_r; [lra|]. apply Qlt_le_weak. apply qp_pos.
    - rewrite <- qp_add. replace (e - 1 + Z.of_nat b)%Z with (Z.of_nat a - 1)%Z by (unfold e; ring). exact N1. }
  assert (Hi : n # d < Qpower 10 (e + 1)).
  { rewrite X. apply Qlt_shift_div_r; [exact Dp|]. apply Qlt_le_trans with (Qpower 10 (e + 1) * Qpower 10 (Z.of_nat b - 1)).
    - rewrite <- qp_add. replace (e + 1 + (Z.of_nat b - 1))%Z with (Z.of_nat a) by (unfold e; ring). exact N2.
    - rewrite !(Qmult_comm (Qpower 10 (e + 1))). apply Qmult_le_compat_r; [exact D1|]. apply Qlt_le_weak. apply qp_pos. }
  destruct (Qle_bool (Qpower (10 # 1) e) (n # d)) eqn:E.
  - apply Qle_bool_iff in E. split; [exact E|exact Hi].
  - split; [exact Lo|]. replace (e - 1 + 1)%Z with e by ring. apply Qnot_le_lt. intro H. apply Qle_bool_iff in H. congruence.
Qed.

Lemma rounded4_spec : forall x, 0 < x -> significant x (fst (rounded4 x)) (snd (rounded4 x))
  /\ (1000 <= fst (rounded4 x) <= 9999)%Z.
Proof.
  intros x P. unfold rounded4. destruct (exponent_spec x P) as (L & U). set (e := exponent x) in *.
  pose proof (half_even_nearest (x * Qpower (10 # 1) (3 - e))) as N. set (m := half_even (x * Qpower (10 # 1) (3 - e))) in *.
  change (10 # 1) with 10 in *.
  assert (B1 : inject_Z 1000 <= x * Qpower 10 (3 - e)).
  { apply Qle_trans with (Qpower 10 e * Qpower 10 (3 - e)).
    - rewrite <- qp_add. replace (e + (3 - e))%Z with 3%Z by ring. discriminate.
    - apply Qmult_le_compat_r; [exact L|]. apply Qlt_le_weak, qp_pos. }
  assert (B2 : x * Qpower 10 (3 - e) <= inject_Z 10000).
  { apply Qle_trans with (Qpower 10 (e + 1) * Qpower 10 (3 - e)).
    - apply Qmult_le_compat_r; [apply Qlt_le_weak; exact U|]. apply Qlt_le_weak, qp_pos.
    - rewrite <- qp_add. replace (e + 1 + (3 - e))%Z with 4%Z by ring. discriminate. }
  pose proof (nearest_ge _ _ _ N B1) as M1. pose proof (nearest_le _ _ _ N B2) as M2.
  destruct (m =? 10000)%Z eqn:E; cbn [fst snd].
  - apply Z.eqb_eq in E. split; [|lia]. exists e, m. split; [exact L|]. split; [exact U|]. split; [exact N|]. right. repeat split. exact E.
  - apply Z.eqb_neq in E. split; [|lia]. exists e, m. split; [exact L|]. split; [exact U|]. split; [exact N|]. left. repeat split. exact E.
Qed.

Lemma strip_spec : forall s, exists k, s = strip s ++ repeat "0"%char k
  /\ (strip s = [] \/ exists f c, strip s = f ++ [c] /\ c <> "0"%char).
Proof.
  induction s as [|c t (k & E & K)]; [exists 0%nat; split; [reflexivity|left; reflexivity]|].
  cbn [strip]. destruct (strip t) as [|c' r] eqn:S.
  - destruct (Ascii.eqb c "0"%char) eqn:Z.
    + apply Ascii.eqb_eq in Z. subst c. exists (Datatypes.S k). split; [cbn [app repeat]; f_equal; exact E|left; reflexivity].
    + apply Ascii.eqb_neq in Z. exists k. split; [cbn [app]; f_equal; exact E|]. right. exists [], c. split; [reflexivity|exact Z].
  - exists k. split; [cbn [app]; f_equal; exact E|]. right. destruct K as [K|(f & c2 & K & Z)]; [discriminate|].
    exists (c :: f), c2. split; [cbn [app]; f_equal; exact K|exact Z].
Qed.

Lemma zeros_number : forall k, (0 < k)%nat -> number (repeat "0"%char k) 0.
Proof.
  intros k P. destruct k as [|k]; [lia|]. clear P. induction k as [|k IH]; [constructor; apply digit_zero; reflexivity|].
  replace (repeat "0"%char (S (S k))) with (repeat "0"%char (S k) ++ ["0"%char]).
  - apply (number_more _ 0%Z); [exact IH|]. apply digit_zero. reflexivity.
  - clear. induction k as [|k IH]; [reflexivity|]. cbn [repeat app] in *. f_equal. exact IH.
Qed.

Lemma zeros_only : forall k n, number (repeat "0"%char k) n -> n = 0%Z.
Proof.
  induction k as [|k IH]; intros n N; [apply number_bound in N; destruct N as (_ & N); cbn in N; congruence|].
  apply number_uncons in N. destruct N as (c & t & d & E & D & J). cbn [repeat] in E. injection E as <- <-.
  assert (d = 0%Z) by (apply (digit_inj _ _ D); apply digit_zero; reflexivity).
  destruct J as [(_ & J)|(k' & J & ->)]; [lia|]. apply IH in J. lia.
Qed.

Lemma point_spec : forall s n, number s n -> exists q, fraction (point s) q /\ q == inject_Z n / Qpower 10 (Z.of_nat (length s)).
Proof.
  intros s n N. unfold point. destruct (strip_spec s) as (k & E & K). destruct (strip s) as [|c r] eqn:S.
  - exists 0. split; [constructor|]. cbn [app] in E. pose proof (number_bound _ _ N) as (_ & Z).
    assert (n = 0%Z).
    { subst s. destruct k as [|k]; [cbn in Z; congruence|]. exact (zeros_only _ _ N). }
    subst n. change (inject_Z 0) with 0. field. apply qp_nz.
  - destruct K as [K|(f & c2 & K & Z)]; [discriminate|]. rewrite K in *.
    destruct k as [|k].
    + cbn [repeat] in E. rewrite app_nil_r in E. subst s. eexists. split; [apply (fraction_some f c2 n); assumption|reflexivity].
    + assert (A : f ++ [c2] <> []) by (destruct f; discriminate).
      rewrite E in N. destruct (number_split _ _ _ N A) as (N1 & N2); [discriminate|].
      assert (Zr : (n mod p10 (length (repeat "0"%char (Datatypes.S k))) = 0)%Z).
      { exact (zeros_only _ _ N2). }
      eexists. split; [apply (fraction_some f c2 _ N1 Z)|]. rewrite E, (app_length (f ++ [c2])). set (z := length (repeat "0"%char (Datatypes.S k))) in *.
      pose proof (p10_pos z) as Pz. pose proof (Z.div_mod n (p10 z)) as DM. rewrite Zr, Z.add_0_r in DM.
      rewrite Nat2Z.inj_add, qp_add.
      assert (Q : inject_Z n == Qpower 10 (Z.of_nat z) * inject_Z (n / p10 z)).
      { rewrite <- qp_p10, <- inject_Z_mult, <- DM by lia. reflexivity. }
      rewrite Q. field. split; apply qp_nz.
Qed.

Lemma four_digits : forall m, (1000 <= m <= 9999)%Z -> length (dec m) = 4%nat.
Proof.
  intros m B. destruct (dec_length m) as (L & P); [lia|].
  destruct (Nat.lt_trichotomy (length (dec m)) 4) as [H|[H|H]]; [|exact H|].
  - exfalso. assert (p10 (length (dec m)) <= p10 3)%Z by (unfold p10; apply Z.pow_le_mono_r; lia). change (p10 3) with 1000%Z in H0. lia.
  - exfalso. assert (p10 4 <= p10 (length (dec m) - 1))%Z by (unfold p10; apply Z.pow_le_mono_r; lia). change (p10 4) with 10000%Z in H0. lia.
Qed.

Lemma show_exponent_spec : forall e, exists s x, show_exponent e = ["e"%char; s] ++ x
  /\ (s = "+"%char /\ (0 <= e)%Z \/ s = "-"%char /\ (e < 0)%Z)
  /\ number x (Z.abs e) /\ (2 <= length x)%nat /\ (length x = 2%nat \/ canonical x).
Proof.
  intro e. unfold show_exponent. destruct (dec_spec (Z.abs e)) as (N & C); [lia|].
  set (x := (if (Z.abs e <? 10)%Z then txt "0" else []) ++ dec (Z.abs e)).
  assert (X : number x (Z.abs e) /\ (2 <= length x)%nat /\ (length x = 2%nat \/ canonical x)).
  { unfold x. destruct (Z.abs e <? 10)%Z eqn:E.
    - apply Z.ltb_lt in E. split; [apply (number_cons _ _ N "0"%char 0%Z); apply digit_zero; reflexivity|].
      assert (length (dec (Z.abs e)) = 1%nat).
      { pose proof (number_bound _ _ N) as (_ & Z). destruct (Z.eq_dec (Z.abs e) 0) as [K|K].
        - rewrite K in *. reflexivity.
        - destruct (dec_length (Z.abs e)) as (L & P); [lia|]. destruct (Nat.eq_dec (length (dec (Z.abs e))) 1) as [G|G]; [exact G|exfalso].
          assert (p10 1 <= p10 (length (dec (Z.abs e)) - 1))%Z by (unfold p10; apply Z.pow_le_mono_r; lia). change (p10 1) with 10%Z in H. lia. }
      change (txt "0" ++ dec (Z.abs e)) with ("0"%char :: dec (Z.abs e)). cbn [length]. rewrite H. split; [lia|left; reflexivity].
    - apply Z.ltb_ge in E. cbn [app]. split; [exact N|]. split; [|right; exact C].
      destruct (dec_length (Z.abs e)) as (L & P); [lia|]. destruct (le_lt_dec 2 (length (dec (Z.abs e)))) as [G|G]; [exact G|exfalso].
      assert (K : length (dec (Z.abs e)) = 1%nat) by lia. rewrite K in L. change (p10 1) with 10%Z in L. lia. }
  destruct (0 <=? e)%Z eqn:S.
  - apply Z.leb_le in S. exists "+"%char, x. split; [reflexivity|]. split; [left; split; [reflexivity|exact S]|]. exact X.
  - apply Z.leb_gt in S. exists "-"%char, x. split; [reflexivity|]. split; [right; split; [reflexivity|exact S]|]. exact X.
Qed.

Lemma inject_div_mod : forall n k, (0 < k)%Z -> inject_Z n == inject_Z k * inject_Z (n / k) + inject_Z (n mod k).
Proof. intros n k P. rewrite <- inject_Z_mult, <- inject_Z_plus, <- Z.div_mod by lia. reflexivity. Qed.

(** The first [a] digits of four, a point, the others. *)
Lemma cut : forall m a, (1000 <= m <= 9999)%Z -> (1 <= a <= 4)%nat ->
  exists i q, number (firstn a (dec m)) i /\ canonical (firstn a (dec m)) /\ fraction (point (skipn a (dec m))) q
  /\ inject_Z m * Qpower 10 (Z.of_nat a - 4) == inject_Z i + q /\ (0 < i)%Z.
Proof.
  intros m a B A. pose proof (four_digits m B) as L. destruct (dec_spec m) as (N & C); [lia|].
  assert (Cc : canonical (firstn a (dec m)) /\ hd "0"%char (dec m) <> "0"%char).
  { assert (H : hd "0"%char (dec m) <> "0"%char).
    { destruct (dec m) as [|c t]; [discriminate|]. cbn [hd]. intro. subst c. specialize (C t eq_refl). subst t. discriminate. }
    split; [|exact H]. intros t E. destruct (dec m) as [|c u]; [discriminate|]. destruct a; [lia|]. cbn [firstn] in E. injection E as -> _.
    cbn [hd] in H. congruence. }
  destruct Cc as (Cc & H0).
  assert (Pos : forall i, number (firstn a (dec m)) i -> (0 < i)%Z).
  { intros i Ni. destruct (Z.eq_dec i 0) as [->|]; [|pose proof (number_bound _ _ Ni); lia]. exfalso.
    apply number_uncons in Ni. destruct Ni as (c & t & d & E & D & K). destruct (dec m) as [|c0 u]; [discriminate|]. destruct a; [lia|]. cbn [firstn] in E.
    injection E as -> E. cbn [hd] in H0. pose proof (digit_range _ _ D). pose proof (p10_pos (length t)).
    assert (d = 0%Z) by (destruct K as [(_ & K)|(k & K & K2)]; [lia|pose proof (number_bound _ _ K); nia]). subst d. apply digit_zero in D. contradiction. }
  destruct (Nat.eq_dec a 4) as [->|A4].
  - assert (F : firstn 4 (dec m) = dec m) by (apply firstn_all2; lia). assert (S : skipn 4 (dec m) = []) by (apply skipn_all2; lia).
    rewrite S in *. exists m, 0. rewrite F in *. split; [exact N|]. split; [exact C|]. split; [constructor|]. split; [change (Z.of_nat 4 - 4)%Z with 0%Z; cbn [Qpower]; ring|lia].
  - rewrite <- (firstn_skipn a (dec m)) in N.
    assert (LF : length (firstn a (dec m)) = a) by (apply firstn_length_le; lia). assert (LS : length (skipn a (dec m)) = (4 - a)%nat) by (rewrite skipn_length; lia).
    assert (EF : firstn a (dec m) <> []) by (intro Z; rewrite Z in LF; cbn [length] in LF; lia).
    assert (ES : skipn a (dec m) <> []) by (intro Z; rewrite Z in LS; cbn [length] in LS; lia).
    destruct (number_split _ _ _ N EF ES) as (N1 & N2).
    destruct (point_spec _ _ N2) as (q & Fq & Q). exists (m / p10 (length (skipn a (dec m))))%Z, q.
    split; [exact N1|]. split; [exact Cc|]. split; [exact Fq|]. split; [|apply Pos; exact N1].
    rewrite LS in *. rewrite Q. pose proof (inject_div_mod m (p10 (4 - a)) (p10_pos _)) as DM. rewrite DM, qp_p10.
    replace (Z.of_nat a - 4)%Z with (- Z.of_nat (4 - a))%Z by lia. rewrite Qpower_opp. field. apply qp_nz.
Qed.

Lemma general4_spec : forall x, general x (general4 x).
Proof.
  intro x. unfold general, general4. destruct (Qeq_bool x 0) eqn:Z.
  - apply Qeq_bool_iff in Z. left. split; [exact Z|reflexivity].
  - right. apply Qeq_bool_neq in Z.
    assert (P : 0 < Qabs x).
    { destruct (Qlt_le_dec 0 x) as [H|H]; [rewrite Qabs_pos by lra; exact H|]. rewrite Qabs_neg by lra. lra. }
    destruct (rounded4_spec (Qabs x) P) as (S & B). destruct (rounded4 (Qabs x)) as [m e]. cbn [fst snd] in S, B.
    exists m, e.
    set (s := if ((-4 <=? e)%Z && (e <? 4)%Z) then
       if (0 <=? e)%Z then firstn (Z.to_nat (e + 1)) (dec m) ++ point (skipn (Z.to_nat (e + 1)) (dec m))
       else txt "0" ++ point (repeat "0"%char (Z.to_nat (- e - 1)) ++ dec m)
     else firstn 1 (dec m) ++ point (skipn 1 (dec m)) ++ show_exponent e).
    exists s. split; [exact Z|]. split; [exact S|]. split.
    + unfold s. destruct ((-4 <=? e)%Z && (e <? 4)%Z) eqn:R.
      * apply andb_true_iff in R. destruct R as (R1 & R2). apply Z.leb_le in R1. apply Z.ltb_lt in R2.
        destruct (0 <=? e)%Z eqn:E0.
        -- apply Z.leb_le in E0. destruct (cut m (Z.to_nat (e + 1)) B) as (i & q & N & C & F & Q & _); [lia|].
           apply (written_plain m e _ i _ q); try assumption; [lia|].
           rewrite <- Q. replace (Z.of_nat (Z.to_nat (e + 1)) - 4)%Z with (e - 3)%Z by lia. reflexivity.
        -- apply Z.leb_gt in E0. pose proof (four_digits m B) as L4.
           assert (N : number (repeat "0"%char (Z.to_nat (- e - 1)) ++ dec m) m).
           { destruct (dec_spec m) as (N & _); [lia|]. destruct (Z.to_nat (- e - 1)) as [|k] eqn:K; [exact N|].
             replace m with (0 * p10 (length (dec m)) + m)%Z at 2 by ring. apply number_app; [exact N|apply zeros_number; lia]. }
           destruct (point_spec _ _ N) as (q & F & Q).
           apply (written_plain m e (txt "0") 0 _ q).
           ++ lia.
           ++ intros t E. injection E as ->. reflexivity.
           ++ constructor. apply digit_zero. reflexivity.
           ++ exact F.
           ++ rewrite Q, app_length, repeat_length, L4. change (inject_Z 0) with 0.
              replace (Z.of_nat (Z.to_nat (- e - 1) + 4)) with (- (e - 3))%Z by lia. rewrite Qpower_opp. field. apply qp_nz.
      * assert (R' : ~ (-4 <= e < 4)%Z).
        { intros (R1 & R2). apply Z.leb_le in R1. apply Z.ltb_lt in R2. rewrite R1, R2 in R. discriminate. }
        destruct (cut m 1 B) as (i & q & N & C & F & Q & _); [lia|]. pose proof (four_digits m B) as L4.
        destruct (dec m) as [|c t] eqn:Dm; [discriminate|]. cbn [firstn skipn] in *.
        destruct (show_exponent_spec e) as (sg & xx & E & Sg & Nx & L2 & Cx). rewrite E.
        apply (written_power m e c i _ q sg xx R' (number_length1 _ _ N) F); try assumption.
    + unfold sign. destruct (Qle_bool 0 x) eqn:Sg.
      * apply Qle_bool_iff in Sg. left. split; [|reflexivity]. destruct (Qlt_le_dec 0 x) as [H|H]; [exact H|]. exfalso. apply Z. lra.
      * right. split; [|reflexivity]. apply Qnot_le_lt. intro H. apply Qle_bool_iff in H. congruence.
Qed.

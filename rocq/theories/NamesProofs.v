From Coq Require Import String Ascii List Arith ZArith QArith Bool Lia.
From Verif Require Import Base NamesModel NamesSpec.
Import ListNotations.
Open Scope nat_scope.

(** * Characters *)

Lemma ascii_all : forall (P : ascii -> bool), forallb P (map ascii_of_nat (seq 0 256)) = true ->
  forall c, P c = true.
Proof.
  intros P H c. rewrite forallb_forall in H. apply H.
  rewrite <- (ascii_nat_embedding c). apply in_map. apply in_seq.
  pose proof (nat_ascii_bounded c). lia.
Qed.

Ltac chars P := apply (ascii_all P); vm_compute; reflexivity.

Lemma lower_not_upper : forall c, is_upper (lower_char c) = false.
Proof.
  intro c. apply negb_true_iff. revert c.
  chars (fun c => negb (is_upper (lower_char c))).
Qed.

Lemma lower_char_same : forall c, is_upper c = false -> lower_char c = c.
Proof. intros c H. unfold lower_char. rewrite H. reflexivity. Qed.

Lemma upper_lower : forall c, is_upper c = true -> upper_char (lower_char c) = c.
Proof.
  intros c H. apply Ascii.eqb_eq. 
  assert (G : forall c, (implb (is_upper c) (Ascii.eqb (upper_char (lower_char c)) c)) = true)
    by chars (fun c => (implb (is_upper c) (Ascii.eqb (upper_char (lower_char c)) c))).
  specialize (G c). rewrite H in G. exact G.
Qed.

Lemma upper_lower_low : forall c, is_upper c = true -> is_lower (lower_char c) = true.
Proof.
  intros c H.
  assert (G : forall c, implb (is_upper c) (is_lower (lower_char c)) = true)
    by chars (fun c => implb (is_upper c) (is_lower (lower_char c))).
  specialize (G c). rewrite H in G. exact G.
Qed.

Lemma upper_not_us : forall c, is_upper c = true -> Ascii.eqb (lower_char c) underscore = false.
Proof.
  intros c H.
  assert (G : forall c, implb (is_upper c) (negb (Ascii.eqb (lower_char c) underscore)) = true)
    by chars (fun c => implb (is_upper c) (negb (Ascii.eqb (lower_char c) underscore))).
  specialize (G c). rewrite H in G. apply negb_true_iff. exact G.
Qed.

Lemma upper_not_low : forall c, is_upper c = true -> is_lower c = false /\ is_digit c = false.
Proof.
  intros c H.
  assert (G : forall c, implb (is_upper c) (negb (is_lower c) && negb (is_digit c)) = true)
    by chars (fun c => implb (is_upper c) (negb (is_lower c) && negb (is_digit c))).
  specialize (G c). rewrite H in G. cbn in G. apply andb_true_iff in G.
  destruct G as (G1 & G2). split; apply negb_true_iff; auto.
Qed.

Lemma us_not_upper : is_upper underscore = false.
Proof. reflexivity. Qed.

Lemma lower_idem : forall c, lower_char (lower_char c) = lower_char c.
Proof. intro c. apply lower_char_same. apply lower_not_upper. Qed.

(** * The substitution, character by character *)

Fixpoint snake_from (prev : option ascii) (n : name) : name :=
  match n with
  | [] => []
  | c :: t =>
      (match prev with
       | Some a => if (is_lower a || is_digit a) && is_upper c then [underscore] else []
       | None => [] end) ++ lower_char c :: snake_from (Some c) t
  end.

Lemma snake_from_upper : forall n c, is_upper c = true -> snake_from (Some c) n = snake_from None n.
Proof.
  intros n c H. destruct n as [|d t]; [reflexivity|]. cbn [snake_from].
  destruct (upper_not_low _ H) as (-> & ->). reflexivity.
Qed.

Lemma snake_scan : forall k n, length n <= k -> snake n = snake_from None n.
Proof.
  unfold snake, lower. induction k as [|k IH]; intros n Hk.
  - destruct n; [reflexivity|cbn in Hk; lia].
  - destruct n as [|a [|b r]]; [reflexivity|reflexivity|].
    change (sub (a :: b :: r)) with (if (is_lower a || is_digit a) && is_upper b
      then a :: underscore :: b :: sub r else a :: sub (b :: r)).
    destruct ((is_lower a || is_digit a) && is_upper b) eqn:E.
    + cbn [map snake_from app]. rewrite E. cbn [app]. rewrite IH by (cbn in Hk |- *; lia).
      apply andb_true_iff in E. destruct E as (_ & E). rewrite (snake_from_upper r b E). reflexivity.
    + change (map lower_char (a :: sub (b :: r))) with (lower_char a :: map lower_char (sub (b :: r))).
      rewrite IH by (cbn in Hk |- *; lia). cbn [snake_from app]. rewrite E. reflexivity.
Qed.

Lemma snake_eq : forall n, snake n = snake_from None n.
Proof. intro n. apply (snake_scan (length n)). lia. Qed.

(** * Positions *)

Definition starts (n : name) (i : nat) : bool :=
  match i with
  | 0 => false
  | S j => match nth_error n j, nth_error n i with
           | Some a, Some b => (is_lower a || is_digit a) && is_upper b
           | _, _ => false
           end
  end.

Lemma starts_iff : forall n i, starts n i = true <-> word_start n i.
Proof.
  intros n i. unfold starts, word_start. destruct i as [|j].
  - split; [discriminate|]. intros (a & b & _ & _ & H & _). lia.
  - cbn [Nat.sub]. rewrite Nat.sub_0_r. split.
    + destruct (nth_error n j) as [a|] eqn:Ea; [|discriminate].
      destruct (nth_error n (S j)) as [b|] eqn:Eb; [|discriminate].
      intro H. apply andb_true_iff in H. destruct H as (H1 & H2). apply orb_true_iff in H1.
      exists a, b. repeat split; auto. lia.
    + intros (a & b & Hb & Hu & _ & Ha & Hl). rewrite Ha, Hb, Hu.
      destruct Hl as [-> | ->]; [reflexivity|rewrite orb_true_r; reflexivity].
Qed.

Lemma snake_from_positions : forall n pre,
  snake_from (match rev pre with c :: _ => Some c | [] => None end) n
  = flat_map (fun i => (if starts (pre ++ n) i then [underscore] else [])
                       ++ match nth_error (pre ++ n) i with Some c => [lower_char c] | None => [] end)
             (seq (length pre) (length n)).
Proof.
  induction n as [|c t IH]; intros pre; [reflexivity|]. cbn [snake_from length seq flat_map].
  assert (Hn : nth_error (pre ++ c :: t) (length pre) = Some c).
  { rewrite nth_error_app2 by lia. rewrite Nat.sub_diag. reflexivity. }
  rewrite Hn.
  specialize (IH (pre ++ [c])). rewrite rev_app_distr in IH. cbn [rev app] in IH.
  rewrite app_length in IH. cbn [length] in IH. rewrite Nat.add_1_r in IH.
  rewrite <- app_assoc in IH. cbn [app] in IH. rewrite IH.
  rewrite <- app_assoc. cbn [app]. f_equal.
  clear IH. destruct pre as [|p pre' _] using rev_ind; [reflexivity|].
  rewrite rev_app_distr. cbn [rev app]. rewrite app_length. cbn [length]. rewrite Nat.add_1_r.
  unfold starts.
  assert (E1 : nth_error ((pre' ++ [p]) ++ c :: t) (length pre') = Some p).
  { rewrite <- app_assoc, nth_error_app2 by lia. rewrite Nat.sub_diag. reflexivity. }
  rewrite app_length in Hn. cbn [length] in Hn. rewrite Nat.add_1_r in Hn.
  rewrite E1, Hn. reflexivity.
Qed.

Lemma snake_positions : forall n,
  snake n = flat_map (fun i => (if starts n i then [underscore] else [])
                       ++ match nth_error n i with Some c => [lower_char c] | None => [] end)
             (seq 0 (length n)).
Proof. intro n. rewrite snake_eq. exact (snake_from_positions n []). Qed.

Lemma snake_no_upper : forall n, no_upper (snake n).
Proof.
  intro n. unfold snake, lower, no_upper. apply Forall_forall. intros c H.
  apply in_map_iff in H. destruct H as (d & <- & _). apply lower_not_upper.
Qed.

Lemma snake_from_same : forall n p, no_upper n -> snake_from p n = n.
Proof.
  induction n as [|c t IH]; intros p H; [reflexivity|]. inversion H; subst. cbn [snake_from].
  rewrite lower_char_same by auto. rewrite IH by auto.
  destruct p; [rewrite H2, andb_false_r|]; reflexivity.
Qed.

Lemma snake_same : forall n, no_upper n -> snake n = n.
Proof. intros n H. rewrite snake_eq. apply snake_from_same. auto. Qed.

Lemma snake_inj_lower : forall n p, snake_from p n = n -> no_upper n.
Proof.
  induction n as [|c t IH]; intros p H; [constructor|]. cbn [snake_from] in H.
  destruct p as [a|].
  - destruct ((is_lower a || is_digit a) && is_upper c) eqn:E.
    + exfalso. cbn [app] in H. inversion H; subst. apply andb_true_iff in E.
      destruct E as (_ & E). discriminate.
    + cbn [app] in H. injection H as H1 H2. constructor; [|eapply IH; eauto].
      rewrite <- H1. apply lower_not_upper.
  - cbn [app] in H. injection H as H1 H2. constructor; [|eapply IH; eauto].
    rewrite <- H1. apply lower_not_upper.
Qed.

(** * Letters *)

Definition drop_us : name -> name := filter (fun c => negb (Ascii.eqb c underscore)).

Lemma lower_us : forall c, lower_char c = underscore -> c = underscore.
Proof.
  intros c H. destruct (is_upper c) eqn:E.
  - pose proof (upper_not_us _ E) as G. rewrite H in G. discriminate.
  - rewrite lower_char_same in H by auto. auto.
Qed.

Lemma drop_us_snake : forall n p, drop_us (snake_from p n) = lower (drop_us n).
Proof.
  induction n as [|c t IH]; intros p; [reflexivity|]. cbn [snake_from].
  assert (E : forall x l, (x = [] \/ x = [underscore]) -> drop_us (x ++ l) = drop_us l).
  { intros x l [-> | ->]; reflexivity. }
  rewrite E.
  2:{ destruct p; [|auto]. destruct ((is_lower a || is_digit a) && is_upper c); auto. }
  unfold drop_us in *. cbn [filter]. 
  destruct (Ascii.eqb_spec c underscore) as [->|N].
  - cbn. apply IH.
  - destruct (Ascii.eqb_spec (lower_char c) underscore) as [E2|N2].
    + exfalso. apply N. apply lower_us. auto.
    + cbn [negb lower map]. f_equal. apply IH.
Qed.

(** * Decoding CamelCase *)

Fixpoint camelise (cap : bool) (n : name) : name :=
  match n with
  | [] => []
  | c :: t => if Ascii.eqb c underscore then camelise true t
              else (if cap then upper_char c else c) :: camelise false t
  end.

Lemma camelise_tail : forall t a, ~ In underscore t ->
  (forall i c, nth_error (a :: t) (S i) = Some c -> is_upper c = true -> starts (a :: t) (S i) = true) ->
  camelise false (snake_from (Some a) t) = t.
Proof.
  induction t as [|b t IH]; intros a Hu Hc; [reflexivity|]. cbn [snake_from].
  assert (Hb : b <> underscore) by (intro E; apply Hu; left; auto).
  assert (IHt : camelise false (snake_from (Some b) t) = t).
  { apply IH; [intro H; apply Hu; right; auto|]. intros i c H1 H2.
    specialize (Hc (S i) c H1 H2). exact Hc. }
  destruct (is_upper b) eqn:Eb.
  - pose proof (Hc 0 b eq_refl Eb) as Hs. unfold starts in Hs. cbn [nth_error] in Hs.
    rewrite Eb in Hs. rewrite Hs. cbn [app camelise]. rewrite Ascii.eqb_refl.
    cbn [camelise]. rewrite (upper_not_us _ Eb). rewrite (upper_lower _ Eb), IHt. reflexivity.
  - rewrite andb_false_r. cbn [app camelise]. rewrite lower_char_same by auto.
    destruct (Ascii.eqb_spec b underscore) as [E|_]; [contradiction|]. rewrite IHt. reflexivity.
Qed.

Lemma camelise_snake : forall n, camel n -> camelise true (snake n) = n.
Proof.
  intros n ((c & t & -> & Hc) & Hu & Hw). rewrite snake_eq. cbn [snake_from app camelise].
  rewrite (upper_not_us _ Hc), (upper_lower _ Hc). f_equal. apply camelise_tail.
  - intro H. apply Hu. right. auto.
  - intros i d H1 H2. apply starts_iff. apply Hw with (c := d); auto. lia.
Qed.

(** * Dictionaries *)

Lemma name_eqb_iff : forall x y, name_eqb x y = true <-> x = y.
Proof.
  induction x as [|a s IH]; destruct y as [|b t]; cbn [name_eqb]; split; intro H; try discriminate; auto.
  - apply andb_true_iff in H. destruct H as (H1 & H2). apply Ascii.eqb_eq in H1. apply IH in H2. congruence.
  - inversion H; subst. rewrite Ascii.eqb_refl. apply IH. reflexivity.
Qed.

Lemma dict_get_spec : forall l k off i,
  dict_get (combine l (seq off (length l))) k = Some i <->
  off <= i /\ nth_error l (i - off) = Some k
  /\ forall j, i - off < j -> nth_error l j <> Some k.
Proof.
  induction l as [|x t IH]; intros k off i; cbn [length seq combine dict_get].
  - split; [discriminate|]. intros (_ & H & _). destruct (i - off); discriminate.
  - destruct (dict_get (combine t (seq (S off) (length t))) k) as [w|] eqn:E.
    + pose proof E as E'. rewrite IH in E. destruct E as (E1 & E2 & E3). split.
      * intro H. inversion H; subst w. split; [lia|]. replace (i - off) with (S (i - S off)) by lia.
        split; [exact E2|]. intros j Hj. destruct j; [lia|]. cbn. apply E3. lia.
      * intros (H1 & H2 & H3). f_equal.
        destruct (Nat.eq_dec i off) as [->|N].
        { exfalso. apply (H3 (S (w - S off))); [lia|]. cbn. exact E2. }
        { replace (i - off) with (S (i - S off)) in H2, H3 by lia. cbn in H2.
          destruct (Nat.lt_trichotomy i w) as [L|[->|L]]; [exfalso|reflexivity|exfalso].
          - apply (H3 (S (w - S off))); [lia|]. cbn. exact E2.
          - apply (E3 (i - S off)); [lia|]. exact H2. }
    + destruct (name_eqb x k) eqn:Ex.
      * apply name_eqb_iff in Ex. subst x.
        assert (N : forall j, nth_error t j <> Some k).
        { intros j Hj. 
          assert (G : exists j', nth_error t j' = Some k /\ forall j2, j' < j2 -> nth_error t j2 <> Some k).
          { clear -Hj. revert j Hj. induction t as [|y t IHt]; intros j Hj; [destruct j; discriminate|].
            destruct (in_dec (list_eq_dec ascii_dec) k t) as [I|I].
            - apply In_nth_error in I. destruct I as (j0 & I). destruct (IHt _ I) as (j' & A & B).
              exists (S j'). split; [exact A|]. intros j2 L. destruct j2; [lia|]. apply B. lia.
            - destruct j as [|j]; [|exfalso; apply I; eapply nth_error_In; eauto].
              exists 0. split; [exact Hj|]. intros j2 L A. destruct j2; [lia|]. apply I. eapply nth_error_In; eauto. }
          destruct G as (j' & A & B).
          assert (F : dict_get (combine t (seq (S off) (length t))) k = Some (S off + j')).
          { apply IH. replace (S off + j' - S off) with j' by lia. split; [lia|]. auto. }
          congruence. }
        split.
        { intro H. inversion H; subst i. rewrite Nat.sub_diag. split; [lia|]. split; [reflexivity|].
          intros j Hj. destruct j; [lia|]. apply N. }
        { intros (H1 & H2 & H3). f_equal. destruct (Nat.eq_dec i off) as [->|Ne]; [reflexivity|].
          exfalso. replace (i - off) with (S (i - S off)) in H2 by lia. cbn in H2. apply (N _ H2). }
      * split; [discriminate|]. intros (H1 & H2 & H3). exfalso.
        destruct (Nat.eq_dec i off) as [->|Ne].
        { rewrite Nat.sub_diag in H2. cbn in H2. inversion H2; subst x.
          assert (name_eqb k k = true) by (apply name_eqb_iff; reflexivity). congruence. }
        { replace (i - off) with (S (i - S off)) in H2, H3 by lia. cbn in H2.
          assert (F : dict_get (combine t (seq (S off) (length t))) k = Some i).
          { apply IH. split; [lia|]. split; [exact H2|]. intros j Hj.
            specialize (H3 (S j)). cbn in H3. apply H3. lia. }
          congruence. }
Qed.

Lemma dict_get_None : forall (l : list name) k, (forall i, dict_get (combine l (seq 0 (length l))) k <> Some i) -> ~ In k l.
Proof.
  intros l k H I.
  assert (G : exists j', nth_error l j' = Some k /\ forall j2, j' < j2 -> nth_error l j2 <> Some k).
  { clear H. induction l as [|y t IHt]; [destruct I|].
    destruct (in_dec (list_eq_dec ascii_dec) k t) as [I2|I2].
    - destruct (IHt I2) as (j' & A & B). exists (S j'). split; [exact A|].
      intros j2 L. destruct j2; [lia|]. apply B. lia.
    - destruct I as [->|I]; [|contradiction].
      exists 0. split; [reflexivity|]. intros j2 L A. destruct j2; [lia|]. apply I2. eapply nth_error_In; eauto. }
  destruct G as (j' & A & B). apply (H j'). apply dict_get_spec. rewrite Nat.sub_0_r.
  split; [lia|]. auto.
Qed.

Lemma last_named_map : forall (conv : name -> name) l attr i,
  last_named conv l attr i <->
  nth_error (map conv l) i = Some attr /\ forall j, i < j -> nth_error (map conv l) j <> Some attr.
Proof.
  intros conv l attr i. unfold last_named. split.
  - intros ((n & H1 & H2) & H3). split.
    + rewrite <- H2. apply map_nth_error. exact H1.
    + intros j Hj Hc. rewrite nth_error_map in Hc. destruct (nth_error l j) as [m|] eqn:E; [|discriminate].
      cbn in Hc. inversion Hc. eapply H3; eauto.
  - intros (H1 & H2). rewrite nth_error_map in H1. destruct (nth_error l i) as [m|] eqn:E; [|discriminate].
    cbn in H1. inversion H1. split; [exists m; auto|]. intros j n Hj Hn Hc. apply (H2 j Hj).
    rewrite nth_error_map, Hn. cbn. congruence.
Qed.

(** * Splitting *)

Lemma split_nonempty : forall n, split n <> [].
Proof. destruct n as [|c t]; cbn; [discriminate|]. destruct (Ascii.eqb c slash); [discriminate|]. destruct (split t); discriminate. Qed.

Lemma split_plain : forall n, ~ In slash n -> split n = [n].
Proof.
  induction n as [|c t IH]; intro H; [reflexivity|]. cbn [split].
  destruct (Ascii.eqb_spec c slash) as [->|N]; [exfalso; apply H; left; reflexivity|].
  rewrite IH; [reflexivity|]. intro I. apply H. right. exact I.
Qed.

Lemma split_app : forall w n, ~ In slash w -> split (w ++ slash :: n) = w :: split n.
Proof.
  induction w as [|c t IH]; intros n H; [reflexivity|]. cbn [split app].
  destruct (Ascii.eqb_spec c slash) as [->|N]; [exfalso; apply H; left; reflexivity|].
  rewrite IH; [reflexivity|]. intro I. apply H. right. exact I.
Qed.

Lemma lower_same : forall n, no_upper n -> lower n = n.
Proof.
  induction n as [|c t IH]; intro H; [reflexivity|]. inversion H; subst. cbn.
  rewrite lower_char_same by auto. f_equal. auto.
Qed.

Lemma dict_get_key : forall A (l : list (name * A)) k v, dict_get l k = Some v -> In k (map fst l).
Proof.
  induction l as [|[k' w] t IH]; intros k v H; [discriminate|]. cbn [dict_get] in H. cbn [map fst].
  destruct (dict_get t k) as [u|] eqn:E; [right; eapply IH; eauto|].
  destruct (name_eqb k' k) eqn:Ek; [|discriminate]. left. apply name_eqb_iff. exact Ek.
Qed.
(** ** Letters *)

Lemma alphabet_dec : forall (P Q : ascii -> Prop) (p q : ascii -> bool),
  (forall c, p c = true <-> P c) -> (forall c, q c = true <-> Q c) ->
  forallb (fun c => Bool.eqb (p c) (q c)) (map ascii_of_nat (seq 0 256)) = true -> forall c, P c <-> Q c.
Proof.
  intros P Q p q Hp Hq H c. pose proof (ascii_all _ H c) as E. cbv beta in E. apply eqb_prop in E. rewrite <- Hp, <- Hq, E. reflexivity.
Qed.

Definition memb (l : name) (c : ascii) : bool := if in_dec ascii_dec c l then true else false.
Lemma memb_iff : forall l c, memb l c = true <-> In c l.
Proof. intros l c. unfold memb. destruct (in_dec ascii_dec c l); split; intro; try assumption; try reflexivity; [discriminate|contradiction]. Qed.

Lemma upper_iff : forall c, is_upper c = true <-> In c capitals.
Proof. apply (alphabet_dec _ _ is_upper (memb capitals)); [reflexivity|apply memb_iff|]. vm_compute. reflexivity. Qed.
Lemma low_iff : forall c, is_lower c = true <-> In c smalls.
Proof. apply (alphabet_dec _ _ is_lower (memb smalls)); [reflexivity|apply memb_iff|]. vm_compute. reflexivity. Qed.
Lemma digit_iff : forall c, is_digit c = true <-> In c digits.
Proof. apply (alphabet_dec _ _ is_digit (memb digits)); [reflexivity|apply memb_iff|]. vm_compute. reflexivity. Qed.

Lemma capital_at : forall i c, nth_error capitals i = Some c -> nth_error smalls i = Some (lower_char c).
Proof.
  intros i c H. do 26 (destruct i as [|i]; [vm_compute in H; injection H as <-; vm_compute; reflexivity|]).
  exfalso. assert (nth_error capitals (26 + i) = None) by (apply nth_error_None; cbn [capitals]; vm_compute (length _); lia). cbn [Nat.add] in H0. congruence.
Qed.
Lemma small_at : forall i c, nth_error smalls i = Some c -> nth_error capitals i = Some (upper_char c).
Proof.
  intros i c H. do 26 (destruct i as [|i]; [vm_compute in H; injection H as <-; vm_compute; reflexivity|]).
  exfalso. assert (nth_error smalls (26 + i) = None) by (apply nth_error_None; cbn [smalls]; vm_compute (length _); lia). cbn [Nat.add] in H0. congruence.
Qed.

Lemma lowered_iff : forall c d, lower_char c = d <-> lowered c d.
Proof.
  assert (A : forall c d, lowered c d -> lower_char c = d).
  { intros c d [(i & C & S)|(N & ->)].
    - apply capital_at in C. congruence.
    - apply lower_char_same. destruct (is_upper c) eqn:E; [|reflexivity]. apply upper_iff in E. contradiction. }
  intros c d. split; [|apply A]. intros <-. destruct (is_upper c) eqn:E.
  - left. apply upper_iff in E. apply In_nth_error in E. destruct E as (i & E). exists i. split; [exact E|apply capital_at; exact E].
  - right. split; [|apply lower_char_same; exact E]. intro I. apply upper_iff in I. congruence.
Qed.

Lemma raised_iff : forall c d, upper_char c = d <-> raised c d.
Proof.
  assert (K : forall c, is_lower c = false -> upper_char c = c) by (intros c E; unfold upper_char; rewrite E; reflexivity).
  assert (A : forall c d, raised c d -> upper_char c = d).
  { intros c d [(i & C & S)|(N & ->)].
    - apply small_at in C. congruence.
    - apply K. destruct (is_lower c) eqn:E; [|reflexivity]. apply low_iff in E. contradiction. }
  intros c d. split; [|apply A]. intros <-. destruct (is_lower c) eqn:E.
  - left. apply low_iff in E. apply In_nth_error in E. destruct E as (i & E). exists i. split; [exact E|apply small_at; exact E].
  - right. split; [|apply K; exact E]. intro I. apply low_iff in I. congruence.
Qed.

Lemma lower_iff : forall n m, lower n = m <-> Forall2 lowered n m.
Proof.
  unfold lower. induction n as [|c t IH]; intros [|d u]; cbn [map].
  - split; [constructor|reflexivity].
  - split; [discriminate|intro H; inversion H].
  - split; [discriminate|intro H; inversion H].
  - split.
    + intro H. injection H as H1 H2. constructor; [apply lowered_iff; exact H1|apply IH; exact H2].
    + intro H. inversion H; subst. f_equal; [apply lowered_iff; assumption|apply IH; assumption].
Qed.

Lemma capitalise_iff : forall n m, capitalize n = m <-> capitalised n m.
Proof.
  intros [|c t] m; cbn [capitalize].
  - split; [intros <-; constructor|]. intro H. inversion H. reflexivity.
  - split.
    + intros <-. constructor; [apply raised_iff; reflexivity|apply lower_iff; reflexivity].
    + intro H. inversion H; subst. f_equal; [apply raised_iff; assumption|apply lower_iff; assumption].
Qed.

Lemma parts_iff : forall g ws, split g = ws <-> parts g ws.
Proof.
  assert (A : forall g ws, parts g ws -> split g = ws).
  { intros g ws H. induction H as [w N|w g ws N H IH]; [apply split_plain; exact N|]. change "/"%char with slash. rewrite (split_app w g N), IH. reflexivity. }
  intros g ws. split; [|apply A]. intros <-. induction g as [|c t IH]; [apply (parts_one []); intros []|].
  cbn [split]. destruct (Ascii.eqb c slash) eqn:E.
  - apply Ascii.eqb_eq in E. subst c. apply (parts_more [] t (split t)); [intros []|exact IH].
  - apply Ascii.eqb_neq in E. destruct (split t) as [|w ws] eqn:S; [exfalso; exact (split_nonempty t S)|].
    inversion IH as [w' N|w' g' ws' N P]; subst.
    + apply parts_one. intros [I|I]; [apply E; exact I|contradiction].
    + apply (parts_more (c :: w) g' ws); [|exact P]. intros [I|I]; [apply E; exact I|contradiction].
Qed.

Lemma glued_iff : forall sep ws n, ws <> [] -> (join sep ws = n <-> glued sep ws n).
Proof.
  intros sep ws n N. assert (A : forall ws n, glued sep ws n -> join sep ws = n /\ ws <> []).
  { clear. intros ws n H. induction H as [w|w ws n H (IH & N)]; [split; [reflexivity|discriminate]|]. split; [|discriminate].
    cbn [join]. destruct ws; [congruence|]. rewrite IH. reflexivity. }
  split; [|apply A]. intros <-. induction ws as [|w ws IH]; [congruence|]. cbn [join]. destruct ws as [|w' ws]; [constructor|].
  constructor. apply IH. discriminate.
Qed.

Lemma kind_iff : forall k u, dict_get soap_underscores k = Some u <-> exists p, soap_kind k u p.
Proof.
  intros k u. split.
  - intro H. pose proof (dict_get_key _ _ _ _ H) as I. cbn [soap_underscores map fst] in I.
    repeat destruct I as [<-|I]; try contradiction; vm_compute in H; injection H as <-; eexists; constructor.
  - intros (p & H). inversion H; reflexivity.
Qed.
Lemma kind_nice_iff : forall k p, dict_get soap_nice k = Some p <-> exists u, soap_kind k u p.
Proof.
  intros k u. split.
  - intro H. pose proof (dict_get_key _ _ _ _ H) as I. cbn [soap_nice map fst] in I.
    repeat destruct I as [<-|I]; try contradiction; vm_compute in H; injection H as <-; eexists; constructor.
  - intros (p & H). inversion H; reflexivity.
Qed.

Lemma Forall2_map_l : forall (f : name -> name) (P : name -> name -> Prop) l m, (forall x y, f x = y <-> P x y) -> (map f l = m <-> Forall2 P l m).
Proof.
  intros f P l. induction l as [|x t IH]; intros [|y u] H; cbn [map].
  - split; [constructor|reflexivity].
  - split; [discriminate|intro K; inversion K].
  - split; [discriminate|intro K; inversion K].
  - split.
    + intro K. injection K as K1 K2. constructor; [apply H; exact K1|apply IH; assumption].
    + intro K. inversion K; subst. f_equal; [apply H; assumption|apply IH; assumption].
Qed.

Lemma capitals_iff : forall n, num_capitals n = count_capitals n.
Proof.
  intro n. unfold num_capitals. induction n as [|c t IH]; [reflexivity|]. cbn [filter count_capitals].
  destruct (in_dec ascii_dec c capitals) as [I|I].
  - apply upper_iff in I. rewrite I. cbn [length Nat.add]. f_equal. exact IH.
  - destruct (is_upper c) eqn:E; [apply upper_iff in E; contradiction|exact IH].
Qed.

(** Proofs about the groups of a file. *)
From Coq Require Import String Ascii List Arith ZArith QArith Bool Lia Sorting.Sorted Sorting.Permutation.
From Verif Require Import Base BaseLemmas NamesModel NamesSpec NamesProofs SubsetModel MetaModel MetaSpec MetaProofs
  MetaHeaderProofs MetaMapProofs.
Import ListNotations.
Open Scope nat_scope.

(** * Positions *)

Lemma is_zero_iff : forall x, is_zero x = true <-> x == 0.
Proof. intro x. unfold is_zero, zero. apply Qeq_bool_iff. Qed.

Lemma nonzero_from : forall l off,
  let r := flat_map (fun ix : nat * Q => if is_zero (snd ix) then [] else [fst ix]) (combine (seq off (length l)) l) in
  StronglySorted lt r /\ forall i, In i r <-> off <= i /\ not_zero_at l (i - off).
Proof.
  induction l as [|x l IH]; intros off r.
  - split; [constructor|]. intro i. split; [intros []|]. intros (_ & y & H & _). destruct (i - off); discriminate.
  - specialize (IH (S off)). cbv zeta in IH. destruct IH as (A & B).
    assert (E : r = (if is_zero x then [] else [off]) ++
      flat_map (fun ix : nat * Q => if is_zero (snd ix) then [] else [fst ix]) (combine (seq (S off) (length l)) l)) by reflexivity.
    rewrite E. clear E r. set (r := flat_map _ _) in *. split.
    + destruct (is_zero x); [exact A|]. cbn [app]. constructor; [exact A|]. apply Forall_forall.
      intros i I. apply B in I. lia.
    + intro i. split.
      * intro I. apply in_app_or in I. destruct I as [I|I].
        -- destruct (is_zero x) eqn:Z; [destruct I|]. destruct I as [<-|[]]. split; [lia|]. exists x.
           rewrite Nat.sub_diag. split; [reflexivity|]. intro F. apply is_zero_iff in F. congruence.
        -- apply B in I. destruct I as (L & y & I & N). split; [lia|]. exists y.
           replace (i - off) with (S (i - S off)) by lia. auto.
      * intros (L & y & I & N). apply in_or_app. destruct (Nat.eq_dec i off) as [->|D].
        -- left. rewrite Nat.sub_diag in I. injection I as ->. destruct (is_zero y) eqn:Z; [|left; reflexivity].
           apply is_zero_iff in Z. destruct (N Z).
        -- right. apply B. split; [lia|]. exists y. replace (i - off) with (S (i - S off)) in I by lia. auto.
Qed.

Lemma nonzero_spec : forall l, StronglySorted lt (nonzero l) /\ forall i, In i (nonzero l) <-> not_zero_at l i.
Proof.
  intro l. destruct (nonzero_from l 0) as (A & B). split; [exact A|]. intro i. unfold nonzero. rewrite B.
  rewrite Nat.sub_0_r. split; [intros (_ & H); exact H|intro H; split; [lia|exact H]].
Qed.

(** * Decimals *)

Lemma digits_numeral : forall fuel n acc, n < fuel -> exists s, numeral n s /\ digits_from fuel n acc = s ++ acc.
Proof.
  induction fuel as [|fuel IH]; intros n acc L; [lia|]. cbn [digits_from].
  assert (M : n mod 10 < 10) by (apply Nat.mod_upper_bound; lia).
  pose proof (Nat.div_mod n 10 ltac:(lia)) as E.
  destruct (n / 10) as [|q] eqn:D.
  - exists [ascii_of_nat (48 + n mod 10)]. split; [|reflexivity].
    replace n with (n mod 10) at 1 by lia. apply numeral_digit. exact M.
  - destruct (IH (S q) (ascii_of_nat (48 + n mod 10) :: acc)) as (s & N & R); [lia|].
    exists (s ++ [ascii_of_nat (48 + n mod 10)]). split.
    + rewrite E at 1. apply numeral_more; [lia|exact M|exact N].
    + rewrite R, <- app_assoc. reflexivity.
Qed.

Lemma numeral_unique : forall i s, numeral i s -> forall s', numeral i s' -> s = s'.
Proof.
  intros i s N. induction N as [d L|q s d P L N IH]; intros s' N'; inversion N' as [d' L' E E'|q' t d' P' L' M E E']; subst.
  - reflexivity.
  - lia.
  - lia.
  - assert (q' = q /\ d' = d) as (-> & ->) by lia. rewrite (IH t M). reflexivity.
Qed.

Lemma decimal_numeral : forall i, numeral i (decimal i).
Proof.
  intro i. unfold decimal. destruct (digits_numeral (S i) i [] ltac:(lia)) as (s & N & ->). rewrite app_nil_r. exact N.
Qed.

Lemma type_group_iff : forall i g, type_group i g <-> g = txt "PartType" ++ decimal i.
Proof.
  intros i g. split.
  - intros (s & N & ->). rewrite (numeral_unique i s N _ (decimal_numeral i)). reflexivity.
  - intros ->. exists (decimal i). split; [apply decimal_numeral|reflexivity].
Qed.

Lemma ascii_digit : forall d d', d < 10 -> d' < 10 -> ascii_of_nat (48 + d) = ascii_of_nat (48 + d') -> d = d'.
Proof.
  intros d d' L L' E. apply (f_equal nat_of_ascii) in E. rewrite !nat_ascii_embedding in E by lia. lia.
Qed.

Lemma numeral_long : forall i s, numeral i s -> s <> [].
Proof. intros i s N. destruct N as [d L|q s d P L N]; [discriminate|]. intro E. apply app_eq_nil in E. destruct E. discriminate. Qed.

Lemma numeral_inj : forall i s, numeral i s -> forall i', numeral i' s -> i = i'.
Proof.
  intros i s N. induction N as [d L|q s d P L N IH]; intros i' N'; inversion N' as [d' L' E E'|q' t d' P' L' M E E']; subst.
  - apply ascii_digit in E'; auto.
  - exfalso. apply (numeral_long _ _ M). apply (f_equal (@length _)) in E'. rewrite app_length in E'. cbn in E'.
    destruct t; [reflexivity|cbn in E'; lia].
  - exfalso. apply (numeral_long _ _ N). apply (f_equal (@length _)) in E'. rewrite app_length in E'. cbn in E'.
    destruct s; [reflexivity|cbn in E'; lia].
  - apply app_inj_tail in E'. destruct E' as (-> & E'). apply ascii_digit in E'; [|assumption|assumption]. rewrite (IH _ M). lia.
Qed.

Lemma type_group_inj : forall i i' g, type_group i g -> type_group i' g -> i = i'.
Proof.
  intros i i' g (s & N & ->) (s' & N' & E). apply app_inv_head in E. subst s'. apply (numeral_inj _ _ N _ N').
Qed.

Lemma snapshot_name : forall g n, dict_get particle_name_underscores g = Some n <-> named KSnapshot g n.
Proof.
  intros g n. split.
  - intro H. assert (I : In (g, n) particle_name_underscores).
    { revert H. generalize particle_name_underscores. intro l. induction l as [|[k w] l IH]; [discriminate|].
      cbn [dict_get]. destruct (dict_get l g) eqn:E.
      - intro F. injection F as ->. right. apply IH. reflexivity.
      - destruct (name_eqb k g) eqn:F; [|discriminate]. intro G. injection G as ->. apply name_eqb_iff in F. subst. left. reflexivity. }
    clear H.
    assert (T : exists i, nth_error particle_name_underscores i = Some (g, n)) by (apply In_nth_error; exact I).
    clear I. destruct T as (i & T). exists i.
    do 8 (destruct i as [|i]; [injection T as <- <-; eexists; split; [reflexivity|];
      split; [apply type_group_iff; reflexivity|reflexivity]|]). destruct i; discriminate.
  - intros (i & t & H & T & ->). apply type_group_iff in T. subst g.
    do 8 (destruct i as [|i]; [injection H as <-; reflexivity|]). destruct i; discriminate.
Qed.

Lemma decimal_type : forall i g, type_group i g -> ((exists n, named KSnapshot g n) <-> i < 8).
Proof.
  intros i g T. split.
  - intros (n & j & t & H & T' & _). rewrite (type_group_inj i j g T T').
    change 8 with (length type_names). apply nth_error_Some. congruence.
  - intro L. destruct (nth_error type_names i) as [t|] eqn:E.
    + exists (txt t), i, t. auto.
    + apply nth_error_None in E. change (length type_names) with 8 in E. lia.
Qed.

(** * Sorting *)

Lemma name_leb_le : forall x y, name_leb x y = true <-> text_le x y.
Proof.
  induction x as [|a s IH]; intros y.
  - split; [intros _; left; exists y; reflexivity|reflexivity].
  - destruct y as [|b t]; cbn [name_leb].
    + split; [discriminate|]. intros [(r & H)|(p & c & d & u & v & _ & H & _)]; [discriminate|].
      destruct p; discriminate.
    + destruct (nat_of_ascii a <? nat_of_ascii b) eqn:E1.
      * split; [|reflexivity]. intros _. right. exists [], a, b, s, t. apply Nat.ltb_lt in E1. auto.
      * apply Nat.ltb_ge in E1. destruct (nat_of_ascii b <? nat_of_ascii a) eqn:E2.
        -- apply Nat.ltb_lt in E2. split; [discriminate|].
           intros [(r & H)|(p & c & d & u & v & H & G & L)].
           ++ injection H as -> _. lia.
           ++ destruct p as [|q p]; injection H as -> _; injection G as -> _; lia.
        -- apply Nat.ltb_ge in E2. assert (F : a = b).
           { rewrite <- (ascii_nat_embedding a), <- (ascii_nat_embedding b). f_equal. lia. }
           subst b. rewrite IH. split.
           ++ intros [(r & ->)|(p & c & d & u & v & -> & -> & L)].
              ** left. exists r. reflexivity.
              ** right. exists (a :: p), c, d, u, v. auto.
           ++ intros [(r & H)|(p & c & d & u & v & H & G & L)].
              ** injection H as ->. left. exists r. reflexivity.
              ** destruct p as [|q p].
                 --- injection H as -> _. injection G as -> _. lia.
                 --- injection H as <- ->. injection G as ->. right. exists p, c, d, u, v. auto.
Qed.

Lemma name_leb_total : forall x y, name_leb x y = false -> name_leb y x = true.
Proof.
  induction x as [|a s IH]; intros y H; [discriminate|]. destruct y as [|b t]; [reflexivity|].
  cbn [name_leb] in *. destruct (nat_of_ascii a <? nat_of_ascii b) eqn:E1; [discriminate|].
  destruct (nat_of_ascii b <? nat_of_ascii a) eqn:E2; [reflexivity|]. apply IH. exact H.
Qed.

Lemma name_leb_trans : forall x y z, name_leb x y = true -> name_leb y z = true -> name_leb x z = true.
Proof.
  induction x as [|a s IH]; intros y z H G; [reflexivity|].
  destruct y as [|b t]; [discriminate|]. destruct z as [|c u]; [discriminate|]. cbn [name_leb] in *.
  destruct (nat_of_ascii a <? nat_of_ascii b) eqn:E1.
  - apply Nat.ltb_lt in E1. destruct (nat_of_ascii b <? nat_of_ascii c) eqn:E2.
    + apply Nat.ltb_lt in E2. assert (E : (nat_of_ascii a <? nat_of_ascii c) = true) by (apply Nat.ltb_lt; lia).
      rewrite E. reflexivity.
    + destruct (nat_of_ascii c <? nat_of_ascii b) eqn:E3; [discriminate|].
      apply Nat.ltb_ge in E2, E3. assert (E : (nat_of_ascii a <? nat_of_ascii c) = true) by (apply Nat.ltb_lt; lia).
      rewrite E. reflexivity.
  - destruct (nat_of_ascii b <? nat_of_ascii a) eqn:E1'; [discriminate|]. apply Nat.ltb_ge in E1, E1'.
    assert (EQ : nat_of_ascii a = nat_of_ascii b) by lia. rewrite EQ.
    destruct (nat_of_ascii b <? nat_of_ascii c); [reflexivity|].
    destruct (nat_of_ascii c <? nat_of_ascii b); [discriminate|]. apply (IH t u H G).
Qed.

Lemma insert_perm : forall x l, Permutation (insert x l) (x :: l).
Proof.
  intros x. induction l as [|y l IH]; cbn [insert]; [reflexivity|]. destruct (name_leb x y); [reflexivity|].
  rewrite IH. apply perm_swap.
Qed.

Lemma insert_sorted : forall x l, StronglySorted text_le l -> StronglySorted text_le (insert x l).
Proof.
  intros x. induction l as [|y l IH]; intro H; cbn [insert].
  - constructor; constructor.
  - inversion H as [|? ? H1 H2]; subst. destruct (name_leb x y) eqn:E.
    + constructor; [exact H|]. constructor; [apply name_leb_le; exact E|]. rewrite Forall_forall in H2 |- *.
      intros z I. apply name_leb_le. apply (name_leb_trans x y z E). apply name_leb_le. apply H2. exact I.
    + apply name_leb_total in E. constructor; [apply IH; exact H1|]. rewrite Forall_forall in H2 |- *. intros z I.
      apply (Permutation_in z (insert_perm x l)) in I. destruct I as [<-|I]; [apply name_leb_le; exact E|apply H2; exact I].
Qed.

Lemma sorted_spec : forall l, StronglySorted text_le (sorted l) /\ Permutation (sorted l) l.
Proof.
  induction l as [|x l (A & B)]; cbn; [split; [constructor|reflexivity]|]. split; [apply insert_sorted; exact A|].
  rewrite insert_perm. constructor. exact B.
Qed.

Lemma filter_perm : forall A (p : A -> bool) l, Permutation l (filter p l ++ filter (fun x => negb (p x)) l).
Proof.
  intros A p. induction l as [|x l IH]; [reflexivity|]. cbn [filter]. destruct (p x); cbn [negb app].
  - constructor. exact IH.
  - apply Permutation_cons_app. exact IH.
Qed.

(** * The groups of a file *)

Section WithParams.
Variable text_error : pyerr.
Variable is_date : name -> bool.
Variable cosmology_ok : dict -> res unit.
Notation read := (read_metadata text_error is_date cosmology_ok).
Notation built := (built text_error is_date).

Lemma type_groups : forall l, Forall2 type_group l (map (fun i => txt "PartType" ++ decimal i) l).
Proof. induction l as [|i l IH]; constructor; [apply type_group_iff; reflexivity|exact IH]. Qed.

Lemma groups_typed : forall l gs, Forall2 type_group l gs -> gs = map (fun i => txt "PartType" ++ decimal i) l.
Proof. intros l gs F. induction F as [|i g l gs T F IH]; [reflexivity|]. apply type_group_iff in T. cbn [map]. rewrite <- T, <- IH. reflexivity. Qed.

Lemma present_listed : forall k f h log gs, built f log -> header_is f h ->
  present_groups k f log = Ok gs -> listed k f h gs.
Proof.
  intros k f h log gs B H P. destruct (get_arrays _ _ _ _ _ B H) as (_ & NP & _ & _ & HT & _ & ST).
  unfold present_groups in P. destruct k; cbn [listed].
  - rewrite HT, NP in P. unfold type_table, has, missing.
    destruct (dict_get h (txt "CanHaveTypes")) as [v|] eqn:E; cbn [option_map] in P.
    + destruct (dict_get h (txt "NumPart_ThisFile")) as [w|]; cbn [option_map] in P; [|destruct v; discriminate].
      destruct v as [l| | | |]; try discriminate. injection P as <-. exists l, (nonzero l).
      destruct (nonzero_spec l) as (A & C). split; [left; reflexivity|]. split; [exact A|]. split; [exact C|]. apply type_groups.
    + destruct (dict_get h (txt "NumPart_ThisFile")) as [w|]; cbn [option_map] in P; [|discriminate].
      destruct w as [l| | | |]; try discriminate. injection P as <-. exists l, (nonzero l).
      destruct (nonzero_spec l) as (A & C). split; [right; auto|]. split; [exact A|]. split; [exact C|]. apply type_groups.
  - injection P as <-. destruct (sorted_spec (filter (starts_with (txt "LOS_")) (mf_keys f))) as (A & C).
    split; [exact A|]. exists (filter (fun x => negb (starts_with (txt "LOS_") x)) (mf_keys f)).
    split; [rewrite C; apply filter_perm|]. split; apply Forall_forall; intros x I.
    + apply (Permutation_in x C) in I. apply filter_In in I. apply prefix_iff. apply I.
    + apply filter_In in I. destruct I as (_ & I). intro Q. apply prefix_iff in Q. rewrite Q in I. discriminate.
  - rewrite ST in P. unfold has. destruct (dict_get h (txt "SubhaloTypes")) as [v|]; cbn [option_map] in P; [|discriminate].
    destruct v; try discriminate. injection P as <-. reflexivity.
  - injection P as <-. reflexivity.
Qed.

Lemma present_exists : forall k f h log gs, built f log -> header_is f h ->
  listed k f h gs -> exists gs', present_groups k f log = Ok gs' /\ forall g, In g gs <-> In g gs'.
Proof.
  intros k f h log gs B H L. 
  assert (S : forall gs1 gs2, listed k f h gs1 -> listed k f h gs2 -> forall g, In g gs1 -> In g gs2).
  { intros gs1 gs2 L1 L2 g I. destruct k; cbn [listed] in L1, L2.
    - destruct L1 as (l1 & p1 & T1 & _ & C1 & G1). destruct L2 as (l2 & p2 & T2 & _ & C2 & G2).
      apply groups_typed in G1, G2. subst gs1 gs2.
      assert (E : l1 = l2).
      { unfold type_table, has, missing in T1, T2. destruct T1 as [T1|(T1 & T1')]; destruct T2 as [T2|(T2 & T2')]; congruence. }
      subst l2. apply in_map_iff in I. destruct I as (i & <- & I). apply in_map_iff. exists i. split; [reflexivity|].
      apply C2. apply C1. exact I.
    - destruct L1 as (_ & o1 & P1 & F1 & G1). destruct L2 as (_ & o2 & P2 & F2 & G2).
      assert (J : In g (mf_keys f)) by (apply (Permutation_in g (Permutation_sym P1)); apply in_or_app; left; exact I).
      apply (Permutation_in g P2) in J. apply in_app_or in J. destruct J as [J|J]; [exact J|].
      rewrite Forall_forall in F1, G2. destruct (G2 g J (F1 g I)).
    - unfold has in L1, L2. rewrite L1 in L2. injection L2 as <-. exact I.
    - subst. exact I. }
  assert (X : exists gs', present_groups k f log = Ok gs').
  { destruct (get_arrays _ _ _ _ _ B H) as (_ & NP & _ & _ & HT & _ & ST).
    destruct (get_numbers _ _ _ _ _ B H) as (w & NE & _).
    unfold present_groups. destruct k; cbn [listed] in L; [|eauto| |eauto].
    - rewrite HT, NP. destruct L as (l & _ & [T|(T & T')] & _); unfold has, missing in *.
      + rewrite T, NE. cbn. eauto.
      + rewrite T, T'. cbn. eauto.
    - unfold has in L. rewrite ST, L. cbn. eauto. }
  destruct X as (gs' & X). exists gs'. split; [exact X|]. pose proof (present_listed _ _ _ _ _ B H X) as L'.
  intro g. split; apply S; assumption.
Qed.

Lemma group_name_iff : forall k g n, group_name k g = Ok n <-> named k g n.
Proof.
  intros k g n. destruct k; unfold group_name.
  - rewrite <- snapshot_name. destruct (dict_get particle_name_underscores g); split; intro H; try discriminate; congruence.
  - cbn. split; intro H; [injection H as <-; reflexivity|subst; reflexivity].
  - reflexivity.
  - cbn. split; intro H; [injection H as <-; reflexivity|subst; reflexivity].
Qed.

Lemma fields_filter : forall gs g l, fields_of gs g l (filter (fun i => negb (in_names (g ++ slash :: i) gs)) l).
Proof.
  intros gs g. induction l as [|x l IH]; cbn [filter]; [constructor|].
  destruct (in_names (g ++ slash :: x) gs) eqn:E; cbn [negb].
  - apply fields_skip; [apply in_names_iff; exact E|exact IH].
  - apply fields_keep; [|exact IH]. intro I. apply in_names_iff in I. unfold path_of in I. congruence.
Qed.

Lemma split_at_slash : forall x n, split (x ++ slash :: n) = split x ++ split n.
Proof.
  induction x as [|c x IH]; intro n; [reflexivity|]. cbn [app split]. rewrite IH. destruct (Ascii.eqb c slash); [reflexivity|].
  destruct (split x) as [|w ws] eqn:E; [destruct (split_nonempty x E)|reflexivity].
Qed.

Lemma path_end_last : forall s t, path_end s t -> last_part s = t.
Proof.
  intros s t (N & [-> | (x & ->)]); unfold last_part.
  - rewrite split_plain by exact N. reflexivity.
  - rewrite split_at_slash, (split_plain t) by exact N. apply last_last.
Qed.

Lemma path_end_exists : forall s, exists t, path_end s t.
Proof.
  induction s as [|c s (t & N & IH)].
  - exists []. split; [intros []|left; reflexivity].
  - destruct IH as [-> | (x & ->)].
    + destruct (Ascii.eqb c slash) eqn:E.
      * apply Ascii.eqb_eq in E. subst c. exists t. split; [exact N|]. right. exists []. reflexivity.
      * apply Ascii.eqb_neq in E. exists (c :: t). split; [intros [I|I]; [destruct (E I)|destruct (N I)]|left; reflexivity].
    + exists t. split; [exact N|]. right. exists (c :: x). reflexivity.
Qed.

Lemma last_part_end : forall s t, path_end s t <-> last_part s = t.
Proof.
  intros s t. split; [apply path_end_last|]. intros <-. destruct (path_end_exists s) as (t & P).
  rewrite (path_end_last s t P). exact P.
Qed.

Definition expose_of (k : file_kind) : bool := match k with KLineOfSight => true | _ => false end.

Lemma load_group_describes : forall k f gs g n m,
  load_group (expose_of k) f gs (columns_for k f) g n = Ok m -> describes k f gs g n m.
Proof.
  intros k f gs g n m H. unfold load_group in H. destruct (dict_get (mf_groups f) g) as [gi|] eqn:E; [|discriminate].
  destruct (all_ok _) as [cols|] eqn:C; [|discriminate]. cbn [bind] in H. injection H as <-.
  split; [reflexivity|]. split; [reflexivity|].
  exists gi, (filter (fun i => negb (in_names (g ++ slash :: i) gs)) (gi_keys gi)).
  split; [exact E|]. split; [apply fields_filter|]. split; [reflexivity|]. split; [reflexivity|].
  split; [|destruct k; reflexivity]. cbn [gm_columns]. apply all_ok_spec in C. rewrite map_map in C.
  revert cols C. generalize (filter (fun i => negb (in_names (g ++ slash :: i) gs)) (gi_keys gi)).
  intro l. induction l as [|x l IH]; intros cols C; destruct cols as [|c cols]; try discriminate; [constructor|].
  cbn [map] in C. injection C as C1 C2. constructor; [|apply IH; exact C2].
  fold (path_of g x) in C1. destruct (dict_get (columns_for k f) (last_part (path_of g x))) as [q|] eqn:Q.
  - destruct (format_columns q) as [q'|] eqn:F; [|discriminate]. injection C1 as <-. split; [reflexivity|].
    exists (last_part (path_of g x)). split; [apply last_part_end; reflexivity|]. rewrite Q. eauto.
  - injection C1 as <-. split; [reflexivity|].
    exists (last_part (path_of g x)). split; [apply last_part_end; reflexivity|]. rewrite Q. reflexivity.
Qed.

Lemma format_ok : forall c, (exists c', format_columns c = Ok c') <-> c <> [].
Proof.
  intro c. destruct c as [|x c]; cbn [format_columns].
  - split; [intros (c' & H); discriminate|congruence].
  - split; [discriminate|]. intros _. cbv zeta. destruct (negb _); eauto.
Qed.

Lemma load_group_ok : forall k f gs g n, (exists m, load_group (expose_of k) f gs (columns_for k f) g n = Ok m) <->
  exists gi, dict_get (mf_groups f) g = Some gi
     /\ forall item t, In item (gi_keys gi) -> ~ In (path_of g item) gs -> path_end (path_of g item) t ->
          dict_get (columns_for k f) t <> Some [].
Proof.
  intros k f gs g n.
  assert (W : forall gi, (forall item t, In item (gi_keys gi) -> ~ In (path_of g item) gs -> path_end (path_of g item) t ->
          dict_get (columns_for k f) t <> Some []) <->
     forall item, In item (gi_keys gi) -> ~ In (path_of g item) gs ->
          dict_get (columns_for k f) (last_part (path_of g item)) <> Some []).
  { intro gi. split; intro H.
    - intros item I N. apply (H item); [exact I|exact N|apply last_part_end; reflexivity].
    - intros item t I N P. apply last_part_end in P. subst t. apply H; assumption. }
  unfold load_group. destruct (dict_get (mf_groups f) g) as [gi|].
  - set (F := fun p => match dict_get (columns_for k f) (last_part p) with
                       | Some c => do c' <- format_columns c; Ok (p, Some c') | None => Ok (p, None) end).
    assert (A : (exists r, all_ok (map F (map (fun i => g ++ slash :: i)
        (filter (fun i => negb (in_names (g ++ slash :: i) gs)) (gi_keys gi)))) = Ok r) <->
      forall item, In item (gi_keys gi) -> ~ In (path_of g item) gs -> dict_get (columns_for k f) (last_part (path_of g item)) <> Some []).
    { rewrite map_map. split.
      - intros (r & R) item I N. apply all_ok_spec in R.
        assert (J : In (F (path_of g item)) (map Ok r)).
        { rewrite <- R. apply in_map_iff. exists item. split; [reflexivity|]. apply filter_In. split; [exact I|].
          destruct (in_names (g ++ slash :: item) gs) eqn:E; [|reflexivity]. apply in_names_iff in E. destruct (N E). }
        apply in_map_iff in J. destruct J as (q & J & _). unfold F in J. intro Z. rewrite Z in J. discriminate.
      - intro H. 
        assert (Y : forall l, (forall i, In i l -> In i (gi_keys gi) /\ ~ In (path_of g i) gs) ->
          exists r, all_ok (map (fun x => F (g ++ slash :: x)) l) = Ok r).
        { induction l as [|x l IH]; intro G; [exists []; reflexivity|].
          destruct IH as (r & R); [intros i I; apply G; right; exact I|].
          destruct (G x (or_introl eq_refl)) as (G1 & G2). specialize (H x G1 G2).
          cbn [map all_ok]. unfold F at 1. fold (path_of g x).
          destruct (dict_get (columns_for k f) (last_part (path_of g x))) as [c|].
          - assert (NE : c <> []) by congruence. apply format_ok in NE. destruct NE as (c' & ->). cbn [bind].
            rewrite R. cbn. eauto.
          - cbn [bind]. rewrite R. cbn. eauto. }
        apply Y. intros i I. apply filter_In in I. destruct I as (I & N). split; [exact I|]. intro Q.
        apply in_names_iff in Q. unfold path_of in Q. rewrite Q in N. discriminate. }
    fold F. split.
    + intros (m & H). exists gi. split; [reflexivity|]. apply (proj2 (W gi)). apply A.
      destruct (all_ok (map F _)); [eauto|discriminate].
    + intros (gi' & E & H). injection E as <-. pose proof (proj2 A (proj1 (W gi) H)) as H'. clear H. rename H' into H. destruct H as (r & ->). cbn. eauto.
  - split; [intros (m & H); discriminate|]. intros (gi & H & _). discriminate.
Qed.

Lemma columns_known : forall k f log maps post rest, columns_of k f = Ok maps ->
  log = get_metadata f ++ maps ++ post ++ rest ->
  (forall kv, In kv post -> other (fst kv) = false) -> (forall kv, In kv rest -> fst kv = txt "n_subhalos") ->
  (match dict_get log (txt "named_columns") with Some (VColumns c) => c | _ => [] end) = columns_for k f.
Proof.
  intros k f log maps post rest C -> P R. rewrite !dict_get_app.
  assert (Zr : dict_get rest (txt "named_columns") = None).
  { apply dict_get_none. intros kv I F. rewrite (R kv I) in F. discriminate. }
  assert (Zp : dict_get post (txt "named_columns") = None).
  { apply dict_get_none. intros kv I F. specialize (P kv I). rewrite F in P. vm_compute in P. discriminate. }
  assert (Zg : dict_get (get_metadata f) (txt "named_columns") = None).
  { apply (within_none _ _ _ (get_metadata_within f)). vm_compute. reflexivity. }
  rewrite Zr, Zp, Zg. unfold columns_of in C. unfold columns_for. fold (columns_in f) in C. cbv zeta in C.
  destruct k.
  1,2: destruct (get_mapping_metadata f (columns_in f)) as [mm|] eqn:M; [|discriminate]; injection C as <-;
    cbn [dict_get]; assert (Zm : dict_get mm (txt "named_columns") = None);
    [apply dict_get_none; intros kv I F; pose proof (mapping_names _ _ _ _ M I) as G; rewrite F in G; vm_compute in G; discriminate|];
    rewrite Zm; reflexivity.
  all: injection C as <-; reflexivity.
Qed.

(** The groups that are loaded, with their names. *)
Lemma load_groups_pieces : forall k f log gs,
  present_groups k f log = Ok gs ->
  (match dict_get log (txt "named_columns") with Some (VColumns c) => c | _ => [] end) = columns_for k f ->
  forall r, load_groups k f log = Ok r <->
  exists ns ms, length ns = length gs /\ length ms = length gs
    /\ (forall i g, nth_error gs i = Some g -> exists n m, nth_error ns i = Some n /\ nth_error ms i = Some m
          /\ named k g n /\ load_group (expose_of k) f gs (columns_for k f) g n = Ok m)
    /\ r = map (fun nm => (fst nm ++ txt "_properties", VGroup (snd nm))) (combine ns ms).
Proof.
  intros k f log gs P C r. unfold load_groups. rewrite P. cbn [bind]. rewrite C. fold (expose_of k).
  split.
  - intro H. destruct (all_ok (map (group_name k) gs)) as [ns|] eqn:N; [|discriminate]. cbn [bind] in H.
    apply all_ok_spec in N, H. exists ns.
    assert (LN : length ns = length gs) by (apply (f_equal (@length _)) in N; rewrite !map_length in N; auto).
    assert (X : exists ms, length ms = length gs /\
      (forall i g n, nth_error gs i = Some g -> nth_error ns i = Some n ->
         exists m, nth_error ms i = Some m /\ load_group (expose_of k) f gs (columns_for k f) g n = Ok m)
      /\ r = map (fun nm => (fst nm ++ txt "_properties", VGroup (snd nm))) (combine ns ms)).
    { clear N P. revert ns r H LN.
      assert (G : forall gs', forall ns r, map (fun gn => do m <- load_group (expose_of k) f gs (columns_for k f) (fst gn) (snd gn);
          Ok (snd gn ++ txt "_properties", VGroup m)) (combine gs' ns) = map Ok r -> length ns = length gs' ->
        exists ms, length ms = length gs' /\
      (forall i g n, nth_error gs' i = Some g -> nth_error ns i = Some n ->
         exists m, nth_error ms i = Some m /\ load_group (expose_of k) f gs (columns_for k f) g n = Ok m)
      /\ r = map (fun nm => (fst nm ++ txt "_properties", VGroup (snd nm))) (combine ns ms)).
      { induction gs' as [|g gs' IH]; intros ns r H LN; destruct ns as [|n ns]; try discriminate.
        - destruct r; [|discriminate]. exists []. split; [reflexivity|]. split; [intros [|i]; discriminate|reflexivity].
        - cbn [combine map fst snd] in H. destruct r as [|x r]; [discriminate|]. cbn [map] in H. injection H as H1 H2.
          destruct (load_group (expose_of k) f gs (columns_for k f) g n) as [m|] eqn:E; [|discriminate].
          cbn [bind] in H1. injection H1 as <-. injection LN as LN.
          destruct (IH ns r H2 LN) as (ms & L & A & ->). exists (m :: ms). split; [cbn; congruence|].
          split; [|reflexivity]. intros [|i] g' n' G1 G2.
          + injection G1 as <-. injection G2 as <-. exists m. split; [reflexivity|exact E].
          + apply (A i g' n' G1 G2). }
      intros ns r H LN. apply (G gs ns r H LN). }
    destruct X as (ms & LM & A & ->). exists ms. split; [exact LN|]. split; [exact LM|]. split; [|reflexivity].
    intros i g G. assert (Li : i < length ns) by (rewrite LN; apply nth_error_Some; congruence).
    destruct (nth_error ns i) as [n|] eqn:En; [|apply nth_error_None in En; lia].
    destruct (A i g n G En) as (m & Em & L). exists n, m. split; [reflexivity|]. split; [exact Em|]. split; [|exact L].
    apply group_name_iff. apply (map_nth_error (group_name k)) in G. rewrite N in G.
    rewrite (map_nth_error (@Ok name) i ns En) in G. injection G as G. symmetry. exact G.
  - intros (ns & ms & LN & LM & A & ->).
    assert (N : all_ok (map (group_name k) gs) = Ok ns).
    { apply all_ok_spec. apply nth_error_ext'; [rewrite !map_length; auto|]. intros i.
      destruct (nth_error gs i) as [g|] eqn:G.
      - destruct (A i g G) as (n & m & En & _ & Nm & _). rewrite (map_nth_error _ _ _ G), (map_nth_error _ _ _ En).
        f_equal. apply group_name_iff. exact Nm.
      - apply nth_error_None in G. transitivity (@None (res name)); [|symmetry]; apply nth_error_None; rewrite map_length; lia. }
    rewrite N. cbn [bind]. apply all_ok_spec. rewrite map_map. clear N P.
    assert (G : forall gs' ns ms, length ns = length gs' -> length ms = length gs' ->
      (forall i g, nth_error gs' i = Some g -> exists n m, nth_error ns i = Some n /\ nth_error ms i = Some m
          /\ named k g n /\ load_group (expose_of k) f gs (columns_for k f) g n = Ok m) ->
      map (fun gn => do m <- load_group (expose_of k) f gs (columns_for k f) (fst gn) (snd gn);
          Ok (snd gn ++ txt "_properties", VGroup m)) (combine gs' ns)
      = map (fun nm => Ok (fst nm ++ txt "_properties", VGroup (snd nm))) (combine ns ms)).
    { induction gs' as [|g gs' IH]; intros ns' ms' L1 L2 A'; destruct ns' as [|n ns']; try discriminate;
        destruct ms' as [|m ms']; try discriminate; [reflexivity|].
      cbn [combine map fst snd]. destruct (A' 0 g eq_refl) as (n0 & m0 & E1 & E2 & _ & E3).
      injection E1 as <-. injection E2 as <-. rewrite E3. cbn [bind]. f_equal.
      apply IH; [cbn in L1; lia|cbn in L2; lia|]. intros i g' G. apply (A' (S i) g' G). }
    apply G; assumption.
Qed.

Lemma dict_get_in' : forall A (l : list (name * A)) a v, dict_get l a = Some v -> In (a, v) l.
Proof.
  intros A l a v. induction l as [|[k0 w] l IH]; [discriminate|]. cbn [dict_get]. destruct (dict_get l a) as [u|] eqn:E.
  - intro F. injection F as ->. right. apply IH. reflexivity.
  - destruct (name_eqb k0 a) eqn:F; [|discriminate]. intro G. injection G as ->. apply name_eqb_iff in F. subst.
    left. reflexivity.
Qed.

(** A property object: that of the last group with its name. *)
Lemma load_groups_get : forall k f log gs r, present_groups k f log = Ok gs ->
  (match dict_get log (txt "named_columns") with Some (VColumns c) => c | _ => [] end) = columns_for k f ->
  load_groups k f log = Ok r ->
  (forall i g n, nth_error gs i = Some g -> named k g n ->
     (forall j g', i < j -> nth_error gs j = Some g' -> ~ named k g' n) ->
     exists m, dict_get r (n ++ txt "_properties") = Some (VGroup m) /\ describes k f gs g n m)
  /\ (forall a v, dict_get r a = Some v -> exists g n m, In g gs /\ named k g n /\ a = n ++ txt "_properties"
        /\ v = VGroup m /\ describes k f gs g n m).
Proof.
  intros k f log gs r P C H. apply (load_groups_pieces k f log gs P C r) in H.
  destruct H as (ns & ms & LN & LM & A & ->). split.
  - intros i g n G Nm U. destruct (A i g G) as (n' & m & En & Em & Nm' & L).
    assert (n' = n) by (apply group_name_iff in Nm; apply group_name_iff in Nm'; congruence). subst n'.
    exists m. split; [|apply load_group_describes; exact L].
    assert (K : nth_error (combine ns ms) i = Some (n, m)).
    { clear - En Em. revert ns ms En Em. induction i as [|i IH]; intros [|n0 ns] [|m0 ms] En Em; try discriminate; cbn in *.
      - congruence.
      - apply IH; assumption. }
    rewrite (nth_split_at _ _ _ _ K), map_app. cbn [map fst snd]. apply dict_get_last.
    intros kv I F. apply in_map_iff in I. destruct I as ([n2 m2] & <- & I). cbn [fst] in F.
    apply app_inv_tail in F. subst n2. apply In_nth_error in I. destruct I as (q & I).
    assert (N : forall A (l : list A) a b, nth_error (skipn a l) b = nth_error l (a + b)).
    { intros A0 l a b. revert l. induction a as [|a IH]; intro l; [reflexivity|]. destruct l; [destruct b; reflexivity|]. apply IH. }
    rewrite N in I.
    assert (E2 : nth_error ns (S i + q) = Some n).
    { clear - I. revert ns ms I. generalize (S i + q). intro j. induction j as [|j IH]; intros [|n0 ns] [|m0 ms] I; try discriminate; cbn in *.
      - congruence.
      - apply (IH _ _ I). }
    destruct (nth_error gs (S i + q)) as [g2|] eqn:G2.
    + destruct (A _ _ G2) as (n3 & m3 & E3 & _ & Nm3 & _). apply (U (S i + q) g2); [lia|exact G2|]. congruence.
    + apply nth_error_None in G2. assert (S i + q < length ns) by (apply nth_error_Some; congruence). lia.
  - intros a v D.
    assert (I : In (a, v) (map (fun nm => (fst nm ++ txt "_properties", VGroup (snd nm))) (combine ns ms))).
    { apply dict_get_in'. exact D. }
    apply in_map_iff in I. destruct I as ([n m] & E & I). cbn [fst snd] in E. injection E as <- <-.
    apply In_nth_error in I. destruct I as (i & I).
    assert (E2 : nth_error ns i = Some n /\ nth_error ms i = Some m).
    { clear - I. revert ns ms I. induction i as [|i IH]; intros [|n0 ns] [|m0 ms] I; try discriminate; cbn in *.
      - injection I as -> ->. auto.
      - apply (IH _ _ I). }
    destruct E2 as (E2 & E3). destruct (nth_error gs i) as [g|] eqn:G.
    + destruct (A i g G) as (n' & m' & X1 & X2 & Nm & L). rewrite E2 in X1. rewrite E3 in X2.
      injection X1 as <-. injection X2 as <-. exists g, n, m. split; [apply (nth_error_In _ _ G)|].
      split; [exact Nm|]. split; [reflexivity|]. split; [reflexivity|]. apply load_group_describes. exact L.
    + apply nth_error_None in G. assert (i < length ns) by (apply nth_error_Some; congruence). lia.
Qed.

Lemma load_groups_ok : forall k f log gs, present_groups k f log = Ok gs ->
  (match dict_get log (txt "named_columns") with Some (VColumns c) => c | _ => [] end) = columns_for k f ->
  ((exists r, load_groups k f log = Ok r) <-> Forall (group_fine k f gs) gs).
Proof.
  intros k f log gs P C. split.
  - intros (r & H). apply (load_groups_pieces k f log gs P C r) in H. destruct H as (ns & ms & _ & _ & A & _).
    apply Forall_forall. intros g I. apply In_nth_error in I. destruct I as (i & I).
    destruct (A i g I) as (n & m & _ & _ & Nm & L). split; [eauto|].
    apply (load_group_ok k f gs g n). eauto.
  - intro F. 
    assert (X : forall gs', Forall (group_fine k f gs) gs' -> exists ns ms, length ns = length gs' /\ length ms = length gs'
      /\ (forall i g, nth_error gs' i = Some g -> exists n m, nth_error ns i = Some n /\ nth_error ms i = Some m
          /\ named k g n /\ load_group (expose_of k) f gs (columns_for k f) g n = Ok m)).
    { induction gs' as [|g gs' IH]; intro F'.
      - exists [], []. split; [reflexivity|]. split; [reflexivity|]. intros [|i]; discriminate.
      - inversion F' as [|? ? F1 F2]; subst. destruct (IH F2) as (ns & ms & L1 & L2 & A).
        destruct F1 as ((n & Nm) & G). apply (load_group_ok k f gs g n) in G. destruct G as (m & L).
        exists (n :: ns), (m :: ms). split; [cbn; congruence|]. split; [cbn; congruence|].
        intros [|i] g' E; [injection E as <-; exists n, m; auto|apply (A i g' E)]. }
    destruct (X gs F) as (ns & ms & L1 & L2 & A). eexists. apply (load_groups_pieces k f log gs P C).
    exists ns, ms. auto.
Qed.

(** * Cosmology *)

Lemma truth_iff : forall v b, truth v = Ok b <-> run_flag v b.
Proof.
  intros v b. split.
  - intro H. destruct v as [l|x|s|s|l]; cbn [truth] in H.
    + destruct l as [|x [|y l]]; try discriminate. injection H as <-. destruct (is_zero x) eqn:Z; cbn [negb].
      * apply run_arr0. apply is_zero_iff. exact Z.
      * apply run_arr. intro F. apply is_zero_iff in F. congruence.
    + injection H as <-. destruct (is_zero x) eqn:Z; cbn [negb].
      * apply run_num0. apply is_zero_iff. exact Z.
      * apply run_num. intro F. apply is_zero_iff in F. congruence.
    + injection H as <-. destruct s; [apply run_text0; cbn; auto|eapply run_text; [left; reflexivity|discriminate]].
    + injection H as <-. destruct s; [apply run_text0; cbn; auto|eapply run_text; [right; left; reflexivity|discriminate]].
    + destruct l as [|s [|y l]]; try discriminate. injection H as <-.
      destruct s; [apply run_text0; cbn; auto|eapply run_text; [right; right; left; reflexivity|discriminate]].
  - intro H. destruct H as [x H|x H|x H|x H|v s I N|v I].
    + cbn. destruct (is_zero x) eqn:Z; [apply is_zero_iff in Z; destruct (H Z)|reflexivity].
    + cbn. apply is_zero_iff in H. rewrite H. reflexivity.
    + cbn. destruct (is_zero x) eqn:Z; [apply is_zero_iff in Z; destruct (H Z)|reflexivity].
    + cbn. apply is_zero_iff in H. rewrite H. reflexivity.
    + destruct s; [destruct (N eq_refl)|]. destruct I as [<-|[<-|[<-|[]]]]; reflexivity.
    + destruct I as [<-|[<-|[<-|[]]]]; reflexivity.
Qed.

Lemma cosmology_dict : forall f m, built f m ->
  (match dict_get m (txt "cosmology_raw") with Some (VDict d) => d | _ => [] end) = cosmology_in f.
Proof.
  intros f m B. rewrite (get_raw _ _ _ _ B "Cosmology" "cosmology_raw") by (right; left; reflexivity).
  unfold raw, cosmology_in. destruct (dict_get (mf_groups f) (txt "Cosmology")); reflexivity.
Qed.

Lemma extract_iff : forall f m c, built f m ->
  (extract_cosmology cosmology_ok m = Ok c <->
   exists b, cosmological f b
     /\ (b = true -> cosmology_ok (cosmology_in f) = Ok tt)
     /\ c = [(txt "cosmology", if b then VCosmology (cosmology_in f) else VNone)]).
Proof.
  intros f m c B. unfold extract_cosmology, cosmological. cbv zeta. rewrite (cosmology_dict f m B).
  destruct (dict_get (cosmology_in f) (txt "Cosmological run")) as [v|].
  - destruct (truth v) as [b|e] eqn:T; cbn [bind].
    + apply truth_iff in T. split.
      * intro H. exists b. split; [exact T|]. destruct b.
        -- destruct (cosmology_ok (cosmology_in f)) as [[]|]; [|discriminate]. injection H as <-. auto.
        -- injection H as <-. split; [discriminate|reflexivity].
      * intros (b' & T' & O & ->). assert (b' = b) by (apply truth_iff in T; apply truth_iff in T'; congruence). subst b'.
        destruct b; [rewrite (O eq_refl)|]; reflexivity.
    + split; [discriminate|]. intros (b & T' & _). apply truth_iff in T'. congruence.
  - cbn [bind]. split.
    + intro H. injection H as <-. exists false. split; [reflexivity|]. split; [discriminate|reflexivity].
    + intros (b & -> & _ & ->). reflexivity.
Qed.

(** * All together *)

Lemma aside_groups : forall k f log gs, load_groups k f log = Ok gs -> set_aside gs.
Proof. intros k f log gs L kv I. apply aside_properties. apply (group_names _ _ _ _ _ L I). Qed.

Lemma sub_ok : forall k f h m, built f m -> header_is f h ->
  ((exists sub, (match k with KSOAP => unpack_subhalo_number m | _ => Ok [] end) = Ok sub) <-> subhalos_fine k h).
Proof.
  intros k f h m B H. destruct k; cbn [subhalos_fine]; try solve [split; [auto|eauto]].
  destruct (get_arrays _ _ _ _ _ B H) as (_ & _ & _ & NS & _). unfold unpack_subhalo_number. rewrite NS. unfold has.
  destruct (dict_get h (txt "NumSubhalos_ThisFile")) as [v|]; cbn [option_map].
  - split.
    + intros (sub & E). exists v. split; [reflexivity|]. apply item0_numeric.
      destruct (item_at v 0) as [x|]; [|discriminate]. destruct x; try discriminate. eauto.
    + intros (w & E & N). injection E as <-. apply item0_numeric in N. destruct N as (x & ->). eauto.
  - split; [intros (s & E); discriminate|]. intros (v & E & _). discriminate.
Qed.

Lemma sub_names : forall k log sub,
  (match k with KSOAP => unpack_subhalo_number log | _ => Ok [] end) = Ok sub ->
  forall kv, In kv sub -> fst kv = txt "n_subhalos".
Proof.
  intros k log sub H kv I. destruct k; try (injection H as <-; destruct I).
  unfold unpack_subhalo_number in H. destruct (dict_get log _) as [[]|]; try discriminate.
  destruct (item_at _ 0) as [[]|]; try discriminate. injection H as <-. destruct I as [<-|[]]. reflexivity.
Qed.

Lemma fine_same : forall k f gs gs', (forall g, In g gs <-> In g gs') ->
  Forall (group_fine k f gs) gs -> Forall (group_fine k f gs') gs'.
Proof.
  intros k f gs gs' E F. rewrite Forall_forall in *. intros g I. apply E in I. destruct (F g I) as (A & gi & B & C).
  split; [exact A|]. exists gi. split; [exact B|]. intros item t J N. apply C; [exact J|]. intro K. apply N. apply E. exact K.
Qed.

Lemma read_ok : forall k f h, header_is f h ->
  ((exists m, read k f = Ok m) <->
   mappings_fine k f /\ header_ok h /\ subhalos_fine k h
   /\ (exists gs, listed k f h gs /\ Forall (group_fine k f gs) gs)
   /\ exists b, cosmological f b /\ (b = true -> cosmology_ok (cosmology_in f) = Ok tt)).
Proof.
  intros k f h H. split.
  - intros (m & R). apply read_iff in R. destruct R as (maps & post & sub & gs & c & C & P & U & L & X & ->).
    pose proof (maps_aside _ _ _ C) as MA. pose proof (sub_aside _ _ _ U) as SA.
    assert (B1 : built f (get_metadata f ++ maps ++ post)).
    { exists maps, post, []. rewrite app_nil_r. split; [reflexivity|]. split; [exact P|]. split; [exact MA|intros kv []]. }
    assert (B2 : built f (get_metadata f ++ maps ++ post ++ sub)).
    { exists maps, post, sub. auto. }
    assert (B3 : built f (get_metadata f ++ maps ++ post ++ sub ++ gs)).
    { exists maps, post, (sub ++ gs). split; [reflexivity|]. split; [exact P|]. split; [exact MA|].
      apply aside_app; [exact SA|apply (aside_groups _ _ _ _ L)]. }
    split; [apply mappings_ok; eauto|]. split; [apply (post_ok text_error is_date f maps h MA H); eauto|].
    split; [apply (sub_ok k f h _ B1 H); eauto|]. split.
    + assert (Y : exists pg, present_groups k f (get_metadata f ++ maps ++ post ++ sub) = Ok pg).
      { unfold load_groups in L. destruct (present_groups k f _); [eauto|discriminate]. }
      destruct Y as (pg & Y). exists pg. split; [apply (present_listed k f h _ pg B2 H Y)|].
      apply (load_groups_ok k f _ pg Y).
      * apply (columns_known k f _ maps post sub C eq_refl (post_names _ _ f maps h post MA H P) (sub_names _ _ _ U)).
      * eauto.
    + apply (extract_iff f _ c B3) in X. destruct X as (b & X1 & X2 & _). eauto.
  - intros (M & HO & S & (lg & Lg & F) & (b & Cb & Co)).
    apply mappings_ok in M. destruct M as (maps & C). pose proof (maps_aside _ _ _ C) as MA.
    apply (post_ok text_error is_date f maps h MA H) in HO. destruct HO as (post & P).
    assert (B1 : built f (get_metadata f ++ maps ++ post)).
    { exists maps, post, []. rewrite app_nil_r. split; [reflexivity|]. split; [exact P|]. split; [exact MA|intros kv []]. }
    apply (sub_ok k f h _ B1 H) in S. destruct S as (sub & U). pose proof (sub_aside _ _ _ U) as SA.
    assert (B2 : built f (get_metadata f ++ maps ++ post ++ sub)).
    { exists maps, post, sub. auto. }
    destruct (present_exists k f h _ lg B2 H Lg) as (pg & Y & E).
    apply (fine_same k f lg pg E) in F.
    apply (load_groups_ok k f _ pg Y
      (columns_known k f _ maps post sub C eq_refl (post_names _ _ f maps h post MA H P) (sub_names _ _ _ U))) in F.
    destruct F as (gs & L).
    assert (B3 : built f (get_metadata f ++ maps ++ post ++ sub ++ gs)).
    { exists maps, post, (sub ++ gs). split; [reflexivity|]. split; [exact P|]. split; [exact MA|].
      apply aside_app; [exact SA|apply (aside_groups _ _ _ _ L)]. }
    eexists. apply read_iff. exists maps, post, sub, gs. eexists. do 4 (split; [eassumption|]).
    split; [|reflexivity]. apply (extract_iff f _ _ B3). exists b. auto.
Qed.

Lemma read_groups : forall k f h m, read k f = Ok m -> header_is f h ->
  exists gs, listed k f h gs
  /\ (forall i g n, nth_error gs i = Some g -> named k g n ->
     (forall j g', i < j -> nth_error gs j = Some g' -> ~ named k g' n) ->
     exists gm, dict_get m (n ++ txt "_properties") = Some (VGroup gm) /\ describes k f gs g n gm)
  /\ (forall g, In g gs -> exists n, named k g n)
  /\ (forall a v, ends_with (txt "_properties") a = true -> dict_get m a = Some v ->
        exists g n gm, In g gs /\ named k g n /\ a = n ++ txt "_properties" /\ v = VGroup gm /\ describes k f gs g n gm).
Proof.
  intros k f h m R H. apply read_iff in R. destruct R as (maps & post & sub & gs & c & C & P & U & L & X & ->).
  pose proof (maps_aside _ _ _ C) as MA. pose proof (sub_aside _ _ _ U) as SA.
  assert (B2 : built f (get_metadata f ++ maps ++ post ++ sub)) by (exists maps, post, sub; auto).
  assert (B3 : built f (get_metadata f ++ maps ++ post ++ sub ++ gs)).
  { exists maps, post, (sub ++ gs). split; [reflexivity|]. split; [exact P|]. split; [exact MA|].
    apply aside_app; [exact SA|apply (aside_groups _ _ _ _ L)]. }
  assert (Y : exists pg, present_groups k f (get_metadata f ++ maps ++ post ++ sub) = Ok pg).
  { unfold load_groups in L. destruct (present_groups k f _); [eauto|discriminate]. }
  destruct Y as (pg & Y).
  pose proof (columns_known k f _ maps post sub C eq_refl (post_names _ _ f maps h post MA H P) (sub_names _ _ _ U)) as CK.
  destruct (load_groups_get k f _ pg gs Y CK L) as (G1 & G2).
  assert (NP : forall a, ends_with (txt "_properties") a = true ->
    dict_get (get_metadata f ++ maps ++ post ++ sub ++ gs ++ c) a = dict_get gs a).
  { intros a E. assert (LA : last a " "%char = "s"%char) by (apply (suffix_last (txt "_propertie") "s"%char); exact E).
    rewrite !dict_get_app.
    assert (Zc : dict_get c a = None).
    { apply dict_get_none. intros kv I F. apply (extract_iff f _ c B3) in X. destruct X as (b & _ & _ & ->).
      destruct I as [<-|[]]. cbn [fst] in F. subst a. vm_compute in E. discriminate. }
    assert (Zs : dict_get sub a = None).
    { apply dict_get_none. intros kv I F. rewrite (sub_names _ _ _ U kv I) in F. subst a. vm_compute in E. discriminate. }
    assert (Zp : dict_get post a = None).
    { apply dict_get_none. intros kv I F. pose proof (post_names _ _ f maps h post MA H P kv I) as O. rewrite F in O.
      unfold other in O. rewrite E, orb_true_r in O. discriminate. }
    assert (Zm : dict_get maps a = None).
    { apply dict_get_none. intros kv I F. subst a. unfold columns_of in C. destruct k; cbv zeta in C.
      1,2: destruct (get_mapping_metadata _ _) as [mm|] eqn:Q; [|discriminate]; cbn [bind] in C; injection C as <-;
        destruct I as [<-|I]; [vm_compute in E; discriminate|];
        pose proof (mapping_names _ _ _ _ Q I) as G; apply (suffix_last (txt "mappin") "g"%char) in G; rewrite G in LA; discriminate.
      all: injection C as <-; destruct I. }
    assert (Zg : dict_get (get_metadata f) a = None).
    { apply (within_none _ _ _ (get_metadata_within f)). destruct (in_names a _) eqn:J; [|reflexivity].
      apply in_names_iff in J. exfalso. revert E.
      repeat (destruct J as [<-|J]; [intro E; vm_compute in E; discriminate|]). destruct J. }
    rewrite Zc, Zs, Zp, Zm, Zg. destruct (dict_get gs a); reflexivity. }
  exists pg. split; [apply (present_listed k f h _ pg B2 H Y)|]. split; [|split].
  - intros i g n E N Q. destruct (G1 i g n E N Q) as (gm & D & DS). exists gm. split; [|exact DS].
    rewrite NP; [exact D|]. apply ends_iff. exists n. reflexivity.
  - intros g I. pose proof (proj1 (load_groups_ok k f _ pg Y CK) (ex_intro _ gs L)) as FF. rewrite Forall_forall in FF.
    destruct (FF g I) as (A & _). exact A.
  - intros a v E D. rewrite (NP a E) in D. apply (G2 a v D).
Qed.

Lemma read_cosmology : forall k f m, read k f = Ok m ->
  exists b, cosmological f b /\ (b = true -> cosmology_ok (cosmology_in f) = Ok tt)
  /\ dict_get m (txt "cosmology") = Some (if b then VCosmology (cosmology_in f) else VNone).
Proof.
  intros k f m R. apply read_iff in R. destruct R as (maps & post & sub & gs & c & C & P & U & L & X & ->).
  assert (B3 : built f (get_metadata f ++ maps ++ post ++ sub ++ gs)).
  { exists maps, post, (sub ++ gs). split; [reflexivity|]. split; [exact P|]. split; [apply (maps_aside _ _ _ C)|].
    apply aside_app; [apply (sub_aside _ _ _ U)|apply (aside_groups _ _ _ _ L)]. }
  apply (extract_iff f _ c B3) in X. destruct X as (b & X1 & X2 & ->). exists b. split; [exact X1|]. split; [exact X2|].
  rewrite !app_assoc. rewrite dict_get_app. reflexivity.
Qed.

Lemma read_subhalos : forall f m x r h, read KSOAP f = Ok m -> header_is f h ->
  dict_get h (txt "NumSubhalos_ThisFile") = Some (HArr (x :: r)) ->
  dict_get m (txt "n_subhalos") = Some (VInt (truncate x)).
Proof.
  intros f m x r h R H E. apply read_iff in R. destruct R as (maps & post & sub & gs & c & C & P & U & L & X & ->).
  assert (MA := maps_aside _ _ _ C).
  assert (B1 : built f (get_metadata f ++ maps ++ post)).
  { exists maps, post, []. rewrite app_nil_r. split; [reflexivity|]. split; [exact P|]. split; [exact MA|intros kv []]. }
  assert (B3 : built f (get_metadata f ++ maps ++ post ++ sub ++ gs)).
  { exists maps, post, (sub ++ gs). split; [reflexivity|]. split; [exact P|]. split; [exact MA|].
    apply aside_app; [apply (sub_aside KSOAP _ _ U)|apply (aside_groups _ _ _ _ L)]. }
  destruct (get_arrays _ _ _ _ _ B1 H) as (_ & _ & _ & NS & _). unfold unpack_subhalo_number in U.
  rewrite NS, E in U. cbn in U. injection U as <-. rewrite !dict_get_app.
  assert (Zc : dict_get c (txt "n_subhalos") = None).
  { apply (extract_iff f _ c B3) in X. destruct X as (b & _ & _ & ->). reflexivity. }
  assert (Zg : dict_get gs (txt "n_subhalos") = None).
  { apply dict_get_none. intros kv I F. pose proof (group_names _ _ _ _ _ L I) as G. rewrite F in G. vm_compute in G. discriminate. }
  rewrite Zc, Zg. reflexivity.
Qed.
End WithParams.

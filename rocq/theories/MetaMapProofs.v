(** Proofs about mapping tables. *)
From Coq Require Import String Ascii List Arith ZArith QArith Bool Lia.
From Verif Require Import Base BaseLemmas NamesModel NamesSpec NamesProofs SubsetModel MetaModel MetaSpec MetaProofs
  MetaHeaderProofs.
Import ListNotations.
Open Scope nat_scope.

Lemma is_letter_iff : forall c, is_letter c = true <-> letter c.
Proof.
  intro c. unfold is_letter, is_lower, is_upper, between, letter.
  rewrite orb_true_iff, !andb_true_iff, !Nat.leb_le. lia.
Qed.

Lemma letters_spec : forall s n, n <= letters s <-> n <= length s /\ Forall letter (firstn n s).
Proof.
  induction s as [|c s IH]; intros n; cbn [letters length].
  - split; [intro; assert (n = 0) by lia; subst; split; [lia|constructor]|]. intros (H & _). lia.
  - destruct n as [|n].
    + split; [intros _; split; [lia|constructor]|lia].
    + cbn [firstn]. destruct (is_letter c) eqn:E.
      * apply is_letter_iff in E. specialize (IH n). split.
        -- intro H. assert (J : n <= letters s) by lia. apply IH in J. destruct J. split; [lia|constructor; auto].
        -- intros (H & F). inversion F; subst. assert (J : n <= letters s) by (apply IH; split; [lia|auto]). lia.
      * split; [lia|]. intros (_ & F). inversion F; subst. apply is_letter_iff in H1. congruence.
Qed.

Lemma prefix_iff : forall w s, starts_with w s = true <-> is_prefix w s.
Proof. intros. apply starts_iff'. Qed.

Lemma back_spec : forall w s n,
  match back w s n with
  | Some j => j <= n /\ is_prefix w (skipn j s) /\ forall i, j < i <= n -> ~ is_prefix w (skipn i s)
  | None => forall i, i <= n -> ~ is_prefix w (skipn i s)
  end.
Proof.
  intros w s. induction n as [|n IH]; cbn [back].
  - destruct (starts_with w (skipn 0 s)) eqn:E.
    + apply prefix_iff in E. split; [lia|]. split; [exact E|]. intros i L. lia.
    + intros i L P. apply prefix_iff in P. replace i with 0 in P by lia. congruence.
  - destruct (starts_with w (skipn (S n) s)) eqn:E.
    + apply prefix_iff in E. split; [lia|]. split; [exact E|]. intros i L. lia.
    + destruct (back w s n) as [j|].
      * destruct IH as (L & P & F). split; [lia|]. split; [exact P|]. intros i K Q.
        destruct (Nat.eq_dec i (S n)) as [->|N]; [apply prefix_iff in Q; congruence|]. apply (F i); [lia|exact Q].
      * intros i L P. destruct (Nat.eq_dec i (S n)) as [->|N]; [apply prefix_iff in P; congruence|].
        apply (IH i); [lia|exact P].
Qed.

(** Splits by positions. *)
Definition split_at (s : name) (n j : nat) : Prop :=
  n <= letters s /\ is_prefix (txt "To") (skipn n s)
  /\ j <= letters (skipn (n + 2) s) /\ is_prefix (txt "Mapping") (skipn j (skipn (n + 2) s)).

Lemma skipn_skipn' : forall A (l : list A) i j, skipn i (skipn j l) = skipn (j + i) l.
Proof.
  intros A l i j. revert l. induction j as [|j IH]; intro l; [reflexivity|]. destruct l as [|x l]; cbn.
  - destruct i; reflexivity.
  - apply IH.
Qed.

Lemma split_at_splits : forall s n j, split_at s n j ->
  splits s (firstn n s) (firstn j (skipn (n + 2) s))
  /\ length (firstn n s) = n /\ length (firstn j (skipn (n + 2) s)) = j.
Proof.
  intros s n j (A & (r1 & B) & C & (r2 & D)). apply letters_spec in A. apply letters_spec in C.
  destruct A as (A1 & A2). destruct C as (C1 & C2).
  split; [|split; apply firstn_length_le; assumption].
  split; [exact A2|]. split; [exact C2|]. exists r2.
  rewrite <- (firstn_skipn n s) at 1. f_equal. rewrite B.
  assert (E : skipn (n + 2) s = r1). { rewrite <- skipn_skipn', B. reflexivity. }
  rewrite E in *. f_equal. rewrite <- (firstn_skipn j r1) at 1. f_equal. exact D.
Qed.

Lemma splits_split_at : forall s x y, splits s x y ->
  split_at s (length x) (length y) /\ firstn (length x) s = x
  /\ firstn (length y) (skipn (length x + 2) s) = y.
Proof.
  intros s x y (Lx & Ly & rest & E).
  assert (E1 : firstn (length x) s = x).
  { rewrite E, firstn_app, Nat.sub_diag, firstn_all, app_nil_r. reflexivity. }
  assert (E2 : skipn (length x) s = txt "To" ++ y ++ txt "Mapping" ++ rest).
  { rewrite E, skipn_app, Nat.sub_diag, skipn_all. reflexivity. }
  assert (E3 : skipn (length x + 2) s = y ++ txt "Mapping" ++ rest).
  { rewrite <- skipn_skipn', E2. reflexivity. }
  assert (E4 : firstn (length y) (skipn (length x + 2) s) = y).
  { rewrite E3, firstn_app, Nat.sub_diag, firstn_all, app_nil_r. reflexivity. }
  split; [|split; assumption]. split; [|split; [|split]].
  - apply letters_spec. rewrite E1. split; [|exact Lx]. rewrite E, app_length. lia.
  - exists (y ++ txt "Mapping" ++ rest). exact E2.
  - apply letters_spec. rewrite E4. split; [|exact Ly]. rewrite E3, app_length. lia.
  - exists rest. rewrite E3, skipn_app, Nat.sub_diag, skipn_all. reflexivity.
Qed.

Lemma match_from_spec : forall s n, n <= letters s ->
  match match_from s n with
  | Some (x, y) => exists i j, i <= n /\ split_at s i j /\ x = firstn i s /\ y = firstn j (skipn (i + 2) s)
      /\ forall i' j', i' <= n -> split_at s i' j' -> i' < i \/ i' = i /\ j' <= j
  | None => forall i j, i <= n -> ~ split_at s i j
  end.
Proof.
  intros s n. induction n as [|n IH]; intro L.
  - cbn [match_from].
    destruct (starts_with (txt "To") (skipn 0 s)) eqn:E.
    + pose proof (back_spec (txt "Mapping") (skipn (0 + 2) s) (letters (skipn (0 + 2) s))) as B.
      destruct (back _ _ _) as [j|].
      * destruct B as (B1 & B2 & B3). apply prefix_iff in E. exists 0, j.
        split; [lia|]. split; [repeat split; assumption|]. split; [reflexivity|]. split; [reflexivity|].
        intros i' j' K (_ & _ & C & D). right. assert (i' = 0) by lia. subst. split; [reflexivity|].
        destruct (Nat.le_gt_cases j' j); [assumption|]. exfalso. apply (B3 j'); [lia|exact D].
      * intros i j K (_ & _ & C & D). assert (i = 0) by lia. subst. apply (B j C D).
    + intros i j K (_ & C & _). assert (i = 0) by lia. subst. apply prefix_iff in C. congruence.
  - cbn [match_from].
    assert (HERE : match (if starts_with (txt "To") (skipn (S n) s)
        then match back (txt "Mapping") (skipn (S n + 2) s) (letters (skipn (S n + 2) s)) with
             | Some j => Some (firstn (S n) s, firstn j (skipn (S n + 2) s)) | None => None end
        else None) with
       | Some (x, y) => exists j, split_at s (S n) j /\ x = firstn (S n) s /\ y = firstn j (skipn (S n + 2) s)
                        /\ forall j', split_at s (S n) j' -> j' <= j
       | None => forall j, ~ split_at s (S n) j end).
    { destruct (starts_with (txt "To") (skipn (S n) s)) eqn:E.
      - pose proof (back_spec (txt "Mapping") (skipn (S n + 2) s) (letters (skipn (S n + 2) s))) as B.
        destruct (back _ _ _) as [j|].
        + destruct B as (B1 & B2 & B3). apply prefix_iff in E. exists j.
          split; [repeat split; assumption|]. split; [reflexivity|]. split; [reflexivity|].
          intros j' (_ & _ & C & D). destruct (Nat.le_gt_cases j' j); [assumption|].
          exfalso. apply (B3 j'); [lia|exact D].
        + intros j (_ & _ & C & D). apply (B j C D).
      - intros j (_ & C & _). apply prefix_iff in C. congruence. }
    cbv zeta.
    destruct (if starts_with (txt "To") (skipn (S n) s) then _ else _) as [[x y]|].
    + destruct HERE as (j & A & -> & -> & B). exists (S n), j. split; [lia|]. split; [exact A|].
      split; [reflexivity|]. split; [reflexivity|]. intros i' j' K C.
      destruct (Nat.eq_dec i' (S n)) as [->|N]; [right; split; [reflexivity|apply B; exact C]|left; lia].
    + specialize (IH ltac:(lia)). destruct (match_from s n) as [[x y]|].
      * destruct IH as (i & j & K & A & -> & -> & B). exists i, j. split; [lia|]. split; [exact A|].
        split; [reflexivity|]. split; [reflexivity|]. intros i' j' K' C.
        destruct (Nat.eq_dec i' (S n)) as [->|N]; [destruct (HERE _ C)|]. apply B; [lia|exact C].
      * intros i j K C. destruct (Nat.eq_dec i (S n)) as [->|N]; [apply (HERE _ C)|].
        apply (IH i j); [lia|exact C].
Qed.

Lemma longest_unique : forall s x y x' y', longest s x y -> longest s x' y' -> x = x' /\ y = y'.
Proof.
  intros s x y x' y' (A & B) (C & D). specialize (B _ _ C). specialize (D _ _ A).
  assert (E : x' = x) by (destruct B as [B|(B & _)]; [|exact B]; destruct D as [D|(D & _)]; [lia|auto]).
  subst x'. split; [reflexivity|]. 
  assert (L : length y = length y') by (destruct B as [B|(_ & B)]; [lia|]; destruct D as [D|(_ & D)]; lia).
  apply splits_split_at in A. apply splits_split_at in C. destruct A as (_ & _ & A). destruct C as (_ & _ & C).
  rewrite <- A, <- C, L. reflexivity.
Qed.

Lemma match_longest : forall s x y, match_mapping s = Some (x, y) <-> longest s x y.
Proof.
  intros s x y. unfold match_mapping. pose proof (match_from_spec s (letters s) (le_n _)) as H.
  assert (G : forall x y, match_from s (letters s) = Some (x, y) -> longest s x y).
  { clear x y. intros x y E. rewrite E in H. destruct H as (i & j & _ & A & -> & -> & B).
    destruct (split_at_splits _ _ _ A) as (C & L1 & L2). split; [exact C|].
    intros x' y' D. destruct (splits_split_at _ _ _ D) as (F & F1 & F2).
    rewrite L1, L2. destruct (B (length x') (length y')) as [K|(K & K')].
    - destruct F as (F & _). exact F.
    - exact F.
    - left. exact K.
    - right. split; [|exact K']. rewrite <- F1, K. reflexivity. }
  split; [apply G|]. intro L. destruct (match_from s (letters s)) as [[x' y']|] eqn:E.
  - destruct (longest_unique _ _ _ _ _ L (G _ _ eq_refl)) as (-> & ->). reflexivity.
  - exfalso. destruct L as (L & _). apply splits_split_at in L. destruct L as (L & _).
    apply (H (length x) (length y)); [|exact L]. apply L.
Qed.

Lemma match_none : forall s, match_mapping s = None <-> forall x y, ~ splits s x y.
Proof.
  intros s. split.
  - intros E x y L. unfold match_mapping in E. pose proof (match_from_spec s (letters s) (le_n _)) as H.
    rewrite E in H. apply splits_split_at in L. destruct L as (L & _).
    apply (H (length x) (length y)); [|exact L]. apply L.
  - intro H. destruct (match_mapping s) as [[x y]|] eqn:E; [|reflexivity].
    apply match_longest in E. destruct E as (E & _). destruct (H _ _ E).
Qed.

(** * Columns *)

Lemma first_starting_spec : forall w l,
  match first_starting w l with
  | Some (k, c) => first_prefixed w l k c
  | None => forall k c, In (k, c) l -> ~ is_prefix w k
  end.
Proof.
  intros w. induction l as [|[k c] l IH]; cbn [first_starting].
  - intros k c [].
  - destruct (starts_with w k) eqn:E.
    + apply prefix_iff in E. exists 0. split; [reflexivity|]. split; [exact E|]. intros j k' c' L. lia.
    + assert (N : ~ is_prefix w k) by (intro P; apply prefix_iff in P; congruence).
      destruct (first_starting w l) as [[k' c']|].
      * destruct IH as (i & A & B & C). exists (S i). split; [exact A|]. split; [exact B|].
        intros j k2 c2 L F. destruct j as [|j]; [injection F as -> ->; exact N|].
        apply (C j k2 c2); [lia|exact F].
      * intros k' c' [F|F]; [injection F as -> ->; exact N|]. apply (IH k' c' F).
Qed.

Lemma first_prefixed_unique : forall w l k c k' c', first_prefixed w l k c -> first_prefixed w l k' c' -> k = k' /\ c = c'.
Proof.
  intros w l k c k' c' (i & A & B & C) (j & D & E & F).
  destruct (lt_eq_lt_dec i j) as [[L|L]|L].
  - destruct (F i k c L A B).
  - subst. rewrite A in D. injection D as -> ->. auto.
  - destruct (C j k' c' L D E).
Qed.

Lemma first_starting_iff : forall w l k c, first_starting w l = Some (k, c) <-> first_prefixed w l k c.
Proof.
  intros w l k c. pose proof (first_starting_spec w l) as H. split.
  - intro E. rewrite E in H. exact H.
  - intro F. destruct (first_starting w l) as [[k' c']|].
    + destruct (first_prefixed_unique _ _ _ _ _ _ F H) as (-> & ->). reflexivity.
    + destruct F as (i & A & B & _). apply nth_error_In in A. destruct (H _ _ A B).
Qed.

(** * Values *)

Definition vname (i j : nat) (xs ys : list name) (n : name) : Prop :=
  exists nx ny, nth_error xs i = Some nx /\ nth_error ys j = Some ny /\ n = pair_name nx ny.

Lemma in_combine_seq : forall A (l : list A) off i x,
  In (i, x) (combine (seq off (length l)) l) <-> off <= i /\ nth_error l (i - off) = Some x.
Proof.
  intros A. induction l as [|y l IH]; intros off i x; cbn [length seq combine].
  - split; [intros []|]. intros (_ & H). destruct (i - off); discriminate.
  - cbn [In]. rewrite IH. split.
    + intros [E|(L & N)].
      * injection E as -> ->. rewrite Nat.sub_diag. split; [lia|reflexivity].
      * split; [lia|]. replace (i - off) with (S (i - S off)) by lia. exact N.
    + intros (L & N). destruct (Nat.eq_dec i off) as [->|D].
      * left. rewrite Nat.sub_diag in N. injection N as ->. reflexivity.
      * right. split; [lia|]. replace (i - off) with (S (i - S off)) in N by lia. exact N.
Qed.

Lemma values_ok : forall data xs ys, (exists r, mapping_values data xs ys = Ok r) <->
  forall i j, i < length xs -> j < length ys -> exists v, cell data i j v.
Proof.
  intros data xs ys. unfold mapping_values. rewrite concat_ok_each. split.
  - intros H i j Li Lj. destruct (nth_error xs i) as [nx|] eqn:Ex; [|apply nth_error_None in Ex; lia].
    destruct (nth_error ys j) as [ny|] eqn:Ey; [|apply nth_error_None in Ey; lia].
    assert (Ii : In (i, nx) (combine (seq 0 (length xs)) xs)).
    { apply in_combine_seq. split; [lia|]. rewrite Nat.sub_0_r. exact Ex. }
    assert (Ij : In (j, ny) (combine (seq 0 (length ys)) ys)).
    { apply in_combine_seq. split; [lia|]. rewrite Nat.sub_0_r. exact Ey. }
    match type of H with forall x, In x (map ?F _) -> _ => destruct (H (F (i, nx))) as (r & R) end.
    { apply in_map_iff. exists (i, nx). auto. }
    apply all_ok_spec in R. cbn [fst snd] in R.
    match type of R with map ?G _ = _ => assert (J : In (G (j, ny)) (map Ok r)) end.
    { rewrite <- R. apply in_map_iff. exists (j, ny). auto. }
    cbn [fst snd] in J. apply in_map_iff in J. destruct J as (q & J & _).
    destruct (nth_error data i) as [row|] eqn:E1; [|discriminate].
    destruct (nth_error row j) as [v|] eqn:E2; [|discriminate]. exists v, row. auto.
  - intros H q I. apply in_map_iff in I. destruct I as ([i nx] & <- & I). cbn [fst snd].
    apply in_combine_seq in I. rewrite Nat.sub_0_r in I. destruct I as (_ & Ex).
    assert (Li : i < length xs) by (apply nth_error_Some; congruence).
    assert (A : forall l, (forall jy, In jy l -> fst jy < length ys) ->
      exists r, all_ok (map (fun iy => match nth_error data i with
                           | Some row => match nth_error row (fst iy) with
                               | Some v => Ok (lower nx ++ txt "_to_" ++ lower (snd iy), v)
                               | None => Err IndexError end
                           | None => Err IndexError end) l) = Ok r).
    { induction l as [|[j ny] l IH]; intro F; [exists []; reflexivity|].
      destruct IH as (r & R); [intros jy K; apply F; right; exact K|].
      destruct (H i j Li (F (j, ny) (or_introl eq_refl))) as (v & row & E1 & E2).
      cbn [map all_ok fst snd]. rewrite E1 in *. rewrite E2. cbn [bind]. rewrite R. cbn. eauto. }
    apply A. intros [j ny] K. apply in_combine_seq in K. rewrite Nat.sub_0_r in K. cbn [fst].
    apply nth_error_Some. destruct K as (_ & K). congruence.
Qed.

Lemma dict_get_last : forall A (l1 : list (name * A)) k v l2, (forall kv, In kv l2 -> fst kv <> k) ->
  dict_get (l1 ++ (k, v) :: l2) k = Some v.
Proof.
  intros A l1 k v l2 H. rewrite dict_get_app. cbn [dict_get]. rewrite (dict_get_none _ _ _ H).
  replace (name_eqb k k) with true; [reflexivity|]. symmetry. apply name_eqb_iff. reflexivity.
Qed.

Lemma values_rows : forall data xs ys r, mapping_values data xs ys = Ok r ->
  exists rows, r = concat rows /\ length rows = length xs
  /\ forall i row, nth_error rows i = Some row -> length row = length ys
     /\ forall j kv, nth_error row j = Some kv ->
          exists nx ny, nth_error xs i = Some nx /\ nth_error ys j = Some ny
                        /\ fst kv = pair_name nx ny /\ cell data i j (snd kv).
Proof.
  intros data xs ys r H. unfold mapping_values, concat_ok in H.
  destruct (all_ok _) as [rows|] eqn:E; [|discriminate]. cbn [bind] in H. injection H as <-.
  exists rows. split; [reflexivity|]. apply all_ok_spec in E.
  assert (L : length rows = length xs).
  { apply (f_equal (@length _)) in E. rewrite !map_length, combine_length, seq_length in E. lia. }
  split; [exact L|]. intros i row R.
  assert (Li : i < length xs).
  { destruct (le_lt_dec (length xs) i) as [G|G]; [|exact G]. rewrite <- L in G. apply nth_error_None in G.
    discriminate (eq_trans (eq_sym R) G). }
  destruct (nth_error xs i) as [nx|] eqn:Ex; [|apply nth_error_None in Ex; lia].
  apply (map_nth_error (@Ok _)) in R. rewrite <- E in R.
  assert (C : forall A (l : list A) i x, nth_error l i = Some x -> nth_error (combine (seq 0 (length l)) l) i = Some (i, x)).
  { intros A l. assert (G : forall off i x, nth_error l i = Some x -> nth_error (combine (seq off (length l)) l) i = Some (off + i, x)).
    { induction l as [|y l IH]; intros off q x N; [destruct q; discriminate|]. destruct q as [|q]; cbn in N |- *.
      - injection N as ->. rewrite Nat.add_0_r. reflexivity.
      - rewrite (IH (S off) q x N). f_equal. f_equal. lia. }
    apply (G 0). }
  erewrite map_nth_error in R by (apply C; exact Ex). cbn [fst snd] in R.
  assert (R' := R). clear R. 
  match type of R' with Some ?e = Some (Ok ?r) => assert (R : e = Ok r) by (injection R'; auto) end. clear R'.
  apply all_ok_spec in R.
  assert (Lr : length row = length ys).
  { apply (f_equal (@length _)) in R. rewrite !map_length, combine_length, seq_length in R. lia. }
  split; [exact Lr|]. intros j kv K.
  assert (Lj : j < length ys) by (rewrite <- Lr; apply nth_error_Some; congruence).
  destruct (nth_error ys j) as [ny|] eqn:Ey; [|apply nth_error_None in Ey; lia].
  apply (map_nth_error (@Ok _)) in K. rewrite <- R in K.
  erewrite map_nth_error in K by (apply C; exact Ey). cbn [fst snd] in K.
  destruct (nth_error data i) as [dr|] eqn:E1; [|discriminate].
  destruct (nth_error dr j) as [v|] eqn:E2; [|discriminate]. injection K as <-.
  exists nx, ny. split; [reflexivity|]. split; [reflexivity|]. split; [reflexivity|]. exists dr. auto.
Qed.

Lemma nth_split_at : forall A (l : list A) i x, nth_error l i = Some x ->
  l = firstn i l ++ x :: skipn (S i) l.
Proof.
  intros A. induction l as [|y l IH]; intros i x H; [destruct i; discriminate|].
  destruct i as [|i]; cbn in H |- *; [injection H as ->; reflexivity|]. f_equal. apply IH. exact H.
Qed.

Lemma values_get : forall data xs ys r i j nx ny, mapping_values data xs ys = Ok r ->
  nth_error xs i = Some nx -> nth_error ys j = Some ny ->
  (forall i' j' nx' ny', nth_error xs i' = Some nx' -> nth_error ys j' = Some ny' ->
     pair_name nx' ny' = pair_name nx ny -> i' < i \/ i' = i /\ j' <= j) ->
  exists v, cell data i j v /\ dict_get r (pair_name nx ny) = Some v.
Proof.
  intros data xs ys r i j nx ny H Ex Ey U.
  destruct (values_rows _ _ _ _ H) as (rows & -> & L & R).
  destruct (nth_error rows i) as [row|] eqn:Er.
  2:{ apply nth_error_None in Er. assert (i < length xs) by (apply nth_error_Some; congruence). lia. }
  destruct (R i row Er) as (Lr & Rr).
  destruct (nth_error row j) as [[k v]|] eqn:Ev.
  2:{ apply nth_error_None in Ev. assert (j < length ys) by (apply nth_error_Some; congruence). lia. }
  destruct (Rr j (k, v) Ev) as (nx' & ny' & Ex' & Ey' & Ek & C). rewrite Ex in Ex'. rewrite Ey in Ey'.
  injection Ex' as <-. injection Ey' as <-. cbn [fst snd] in Ek, C. subst k.
  exists v. split; [exact C|].
  rewrite (nth_split_at _ _ _ _ Er), concat_app. cbn [concat]. rewrite (nth_split_at _ _ _ _ Ev).
  rewrite <- app_assoc, app_assoc. cbn [app]. apply dict_get_last.
  intros kv I. apply in_app_or in I. destruct I as [I|I].
  - apply In_nth_error in I. destruct I as (q & I).
    assert (N : forall A (l : list A) a b, nth_error (skipn a l) b = nth_error l (a + b)).
    { intros A l a b. revert l. induction a as [|a IH]; intro l; [reflexivity|]. destruct l; [destruct b; reflexivity|]. apply IH. }
    rewrite N in I. destruct (Rr _ _ I) as (nx' & ny' & Ex' & Ey' & -> & _). intro F.
    destruct (U _ _ _ _ Ex' Ey' F) as [K|(_ & K)]; lia.
  - apply in_concat in I. destruct I as (row' & I & J). apply In_nth_error in I. destruct I as (q & I).
    assert (N : forall A (l : list A) a b, nth_error (skipn a l) b = nth_error l (a + b)).
    { intros A l a b. revert l. induction a as [|a IH]; intro l; [reflexivity|]. destruct l; [destruct b; reflexivity|]. apply IH. }
    rewrite N in I. destruct (R _ _ I) as (_ & R2). apply In_nth_error in J. destruct J as (p & J).
    destruct (R2 _ _ J) as (nx' & ny' & Ex' & Ey' & -> & _). intro F.
    destruct (U _ _ _ _ Ex' Ey' F) as [K|(K & _)]; lia.
Qed.

Lemma values_only : forall data xs ys r n v, mapping_values data xs ys = Ok r -> dict_get r n = Some v ->
  exists i j nx ny, nth_error xs i = Some nx /\ nth_error ys j = Some ny /\ n = pair_name nx ny /\ cell data i j v.
Proof.
  intros data xs ys r n v H D. destruct (values_rows _ _ _ _ H) as (rows & -> & L & R).
  assert (I : In (n, v) (concat rows)).
  { revert D. generalize (concat rows). intro l. induction l as [|[k w] l IH]; [discriminate|]. cbn [dict_get].
    destruct (dict_get l n) as [u|] eqn:E.
    - intro F. injection F as ->. right. apply IH. reflexivity.
    - destruct (name_eqb k n) eqn:F; [|discriminate]. intro G. injection G as ->. apply name_eqb_iff in F. subst.
      left. reflexivity. }
  apply in_concat in I. destruct I as (row & I & J). apply In_nth_error in I. destruct I as (i & I).
  destruct (R _ _ I) as (_ & R2). apply In_nth_error in J. destruct J as (j & J).
  destruct (R2 _ _ J) as (nx & ny & A & B & C & D'). exists i, j, nx, ny. auto.
Qed.

(** * Tables of a file *)

Definition rename (x : name) : name := if name_eqb x (txt "Grain") then txt "Dust" else x.
Lemma rename_iff : forall x x', renamed x x' <-> x' = rename x.
Proof.
  intros x x'. unfold renamed, rename. destruct (name_eqb x (txt "Grain")) eqn:E.
  - apply name_eqb_iff in E. intuition congruence.
  - assert (N : x <> txt "Grain") by (intro F; apply name_eqb_iff in F; congruence). intuition congruence.
Qed.

Lemma mapping_ok : forall cols key data,
  (exists r, mapping_metadata cols (key, data) = Ok r) <-> mapping_fine cols key data.
Proof.
  intros cols key data. unfold mapping_metadata, mapping_fine. cbn [fst snd].
  destruct (match_mapping key) as [[x y]|] eqn:M.
  - apply match_longest in M. fold (rename x). split.
    + intros (r & H) x0 y0 L. destruct (longest_unique _ _ _ _ _ L M) as (-> & ->).
      destruct (first_starting (rename x) cols) as [[kx cx]|] eqn:Fx; [|discriminate].
      destruct (first_starting y cols) as [[ky cy]|] eqn:Fy; [|discriminate].
      exists (rename x), kx, cx, ky, cy. split; [apply rename_iff; reflexivity|].
      split; [apply first_starting_iff; exact Fx|]. split; [apply first_starting_iff; exact Fy|].
      apply values_ok. destruct (mapping_values data cx cy); [eauto|discriminate].
    + intro H. destruct (H x y M) as (x' & kx & cx & ky & cy & Rn & Fx & Fy & V). apply rename_iff in Rn. subst x'.
      apply first_starting_iff in Fx, Fy. rewrite Fx, Fy. apply values_ok in V. destruct V as (r & ->). cbn. eauto.
  - split; [|eauto]. intros _ x y L. exfalso. apply match_longest in L. congruence.
Qed.

Lemma suffix_iff : forall w s, ends_with w s = true <-> is_suffix w s.
Proof. intros. apply ends_iff. Qed.

Lemma mappings_ok : forall k f, (exists maps, columns_of k f = Ok maps) <-> mappings_fine k f.
Proof.
  intros k f. unfold columns_of, mappings_fine.
  assert (A : (exists r, get_mapping_metadata f (columns_in f) = Ok r) <->
    forall key data, In (key, data) (subgrid_in f) -> is_suffix (txt "Mapping") key -> mapping_fine (columns_in f) key data).
  { unfold get_mapping_metadata, subgrid_in. destruct (mf_subgrid f) as [l|].
    - rewrite concat_ok_each. split.
      + intros H key data I E. apply mapping_ok. apply H. apply in_map. apply filter_In. split; [exact I|].
        apply suffix_iff. exact E.
      + intros H x I. apply in_map_iff in I. destruct I as ([key data] & <- & I). apply filter_In in I.
        destruct I as (I & E). apply suffix_iff in E. apply mapping_ok. apply H; assumption.
    - split; [intros _ key data []|eauto]. }
  fold (columns_in f). cbv zeta. destruct k; [| |split; [auto|eauto]|split; [auto|eauto]].
  - rewrite <- A. split; intros (r & H).
    + destruct (get_mapping_metadata f (columns_in f)); [eauto|discriminate].
    + rewrite H. cbn. eauto.
  - rewrite <- A. split; intros (r & H).
    + destruct (get_mapping_metadata f (columns_in f)); [eauto|discriminate].
    + rewrite H. cbn. eauto.
Qed.

Lemma concat_ok_app : forall A (l1 l2 : list (res (list A))) r, concat_ok (l1 ++ l2) = Ok r ->
  exists a b, concat_ok l1 = Ok a /\ concat_ok l2 = Ok b /\ r = a ++ b.
Proof.
  intros A. induction l1 as [|x l1 IH]; intros l2 r H.
  - exists [], r. split; [reflexivity|]. split; [exact H|reflexivity].
  - cbn [app] in H. apply concat_ok_cons in H. destruct H as (a & b & Ha & Hb & ->).
    destruct (IH _ _ Hb) as (a' & b' & Ha' & Hb' & ->). exists (a ++ a'), b'.
    split; [apply concat_ok_cons; eauto|]. split; [exact Hb'|apply app_assoc].
Qed.

Definition is_table (cols : list (name * list name)) (key : name) (data : list (list Q)) (x y : name) (t : mapping_table) : Prop :=
  exists x', renamed x x'
  /\ first_prefixed x' cols (mt_x_name t) (mt_x t) /\ first_prefixed y cols (mt_y_name t) (mt_y t)
  /\ mt_data t = data /\ mapping_values data (mt_x t) (mt_y t) = Ok (mt_values t).

Lemma mapping_one : forall cols key data r, mapping_metadata cols (key, data) = Ok r ->
  (r = [] /\ forall x y, ~ longest key x y)
  \/ exists x y t, longest key x y /\ is_table cols key data x y t /\ r = [(snake key, VTable t)].
Proof.
  intros cols key data r H. unfold mapping_metadata in H. cbn [fst snd] in H.
  destruct (match_mapping key) as [[x y]|] eqn:M.
  - apply match_longest in M. fold (rename x) in H.
    destruct (first_starting (rename x) cols) as [[kx cx]|] eqn:Fx; [|discriminate].
    destruct (first_starting y cols) as [[ky cy]|] eqn:Fy; [|discriminate].
    destruct (mapping_values data cx cy) as [vals|] eqn:V; [|discriminate]. cbn in H. injection H as <-.
    right. exists x, y, (mk_mapping_table data cx cy kx ky vals). split; [exact M|]. split; [|reflexivity].
    exists (rename x). split; [apply rename_iff; reflexivity|].
    split; [apply first_starting_iff; exact Fx|]. split; [apply first_starting_iff; exact Fy|]. split; [reflexivity|exact V].
  - left. injection H as <-. split; [reflexivity|]. intros x y L. apply match_longest in L. congruence.
Qed.

Lemma mapping_origin : forall f cols r kv, get_mapping_metadata f cols = Ok r -> In kv r ->
  exists key data x y t, In (key, data) (subgrid_in f) /\ is_suffix (txt "Mapping") key /\ longest key x y
    /\ is_table cols key data x y t /\ kv = (snake key, VTable t).
Proof.
  intros f cols r kv H I. unfold get_mapping_metadata in H. unfold subgrid_in. destruct (mf_subgrid f) as [l|].
  - destruct (concat_ok_in _ _ _ _ H I) as (s & J & K). apply in_map_iff in J.
    destruct J as ([key data] & E & L). apply filter_In in L. destruct L as (L & M). apply suffix_iff in M.
    destruct (mapping_one _ _ _ _ E) as [(-> & _)|(x & y & t & A & B & ->)]; [destruct K|].
    destruct K as [<-|[]]. exists key, data, x, y, t. auto.
  - injection H as <-. destruct I.
Qed.

Lemma mapping_get : forall f cols r l1 key data l2 x y, get_mapping_metadata f cols = Ok r ->
  subgrid_in f = l1 ++ (key, data) :: l2 -> is_suffix (txt "Mapping") key -> longest key x y ->
  (forall key' data', In (key', data') l2 -> is_suffix (txt "Mapping") key' -> snake key' <> snake key) ->
  exists t, dict_get r (snake key) = Some (VTable t) /\ is_table cols key data x y t.
Proof.
  intros f cols r l1 key data l2 x y H S1 E L U. unfold get_mapping_metadata in H. unfold subgrid_in in S1.
  destruct (mf_subgrid f) as [l|]; [|destruct l1; discriminate]. subst l.
  rewrite filter_app in H. cbn [filter fst] in H. rewrite (proj2 (suffix_iff _ _) E) in H.
  rewrite map_app in H. cbn [map] in H. apply concat_ok_app in H. destruct H as (a & b & _ & Hb & ->).
  apply concat_ok_cons in Hb. destruct Hb as (c & d & Hc & Hd & ->).
  destruct (mapping_one _ _ _ _ Hc) as [(_ & N)|(x' & y' & t & A & B & ->)]; [destruct (N _ _ L)|].
  destruct (longest_unique _ _ _ _ _ L A) as (<- & <-). exists t. split; [|exact B].
  cbn [app]. apply dict_get_last. intros kv I. destruct (concat_ok_in _ _ _ _ Hd I) as (s & J & K).
  apply in_map_iff in J. destruct J as ([key' data'] & F & J). apply filter_In in J. destruct J as (J & M).
  cbn [fst] in M. apply suffix_iff in M.
  destruct (mapping_one _ _ _ _ F) as [(-> & _)|(? & ? & t' & _ & _ & ->)]; [destruct K|].
  destruct K as [<-|[]]. cbn [fst]. apply (U key' data' J M).
Qed.

(** Names that end with mapping come from nowhere else. *)
Section WithParams.
Variable text_error : pyerr.
Variable is_date : name -> bool.
Variable cosmology_ok : dict -> res unit.
Notation read := (read_metadata text_error is_date cosmology_ok).

Lemma post_names : forall f maps h post, set_aside maps -> header_is f h ->
  postprocess_header text_error is_date f (get_metadata f ++ maps) = Ok post ->
  forall kv, In kv post -> other (fst kv) = false.
Proof.
  intros f maps h post M H P kv I. apply (post_iff text_error is_date f maps h post M H) in P.
  destruct P as (s & a & t & st & d & v & S1 & S2 & S3 & S4 & S5 & S6 & ->).
  assert (W : forall l names, within l names -> In kv l -> forallb (fun n => negb (other (txt n))) names = true ->
    other (fst kv) = false).
  { intros l names W J F. specialize (W kv J). apply in_map_iff in W. destruct W as (n & <- & W).
    rewrite forallb_forall in F. specialize (F n W). apply negb_true_iff in F. exact F. }
  repeat (apply in_app_or in I; destruct I as [I|I]).
  - eapply W; [apply (singles_within _ _ S1)|exact I|vm_compute; reflexivity].
  - eapply W; [apply (scale_log_within s)|exact I|vm_compute; reflexivity].
  - eapply W; [apply (arrays_within _ _ _ _ S2)|exact I|vm_compute; reflexivity].
  - eapply W; [apply (tables_within _ _ S3)|exact I|vm_compute; reflexivity].
  - eapply W; [apply (strings_within _ _ S4)|exact I|vm_compute; reflexivity].
  - eapply W; [apply (date_within _ _ _ S5)|exact I|vm_compute; reflexivity].
  - eapply W; [apply (radiation_within f)|exact I|vm_compute; reflexivity].
  - eapply W; [apply (numbers_within v)|exact I|vm_compute; reflexivity].
  - eapply W; [apply gamma_within|exact I|vm_compute; reflexivity].
Qed.

Lemma suffix_last : forall w a s, ends_with (w ++ [a]) s = true -> last s " "%char = a.
Proof.
  intros w a s H. apply ends_iff in H. destruct H as (r & ->). rewrite app_assoc. apply last_last.
Qed.

Lemma read_mapping : forall k f m n, read k f = Ok m -> ends_with (txt "mapping") n = true ->
  dict_get m n = match columns_of k f with Ok maps => dict_get maps n | Err _ => None end.
Proof.
  intros k f m n R E. pose proof (read_built _ _ _ _ _ _ R) as B.
  destruct (dict_get (mf_groups f) (txt "Header")) as [g|] eqn:HD; [|destruct (no_header _ _ f m HD B)].
  apply read_iff in R. destruct R as (maps & post & sub & gs & c & C & P & U & L & X & ->). rewrite C.
  rewrite !dict_get_app.
  assert (LA : last n " "%char = "g"%char) by (apply (suffix_last (txt "mappin") "g"%char); exact E).
  assert (Zc : dict_get c n = None).
  { apply dict_get_none. intros kv I F. subst n. unfold extract_cosmology in X. cbv zeta in X.
    match type of X with bind ?e _ = _ => destruct e as [[]|]; cbn [bind] in X; [| |discriminate] end.
    - destruct (cosmology_ok _); [|discriminate]. injection X as <-. destruct I as [<-|[]]. discriminate.
    - injection X as <-. destruct I as [<-|[]]. discriminate. }
  assert (Zg : dict_get gs n = None).
  { apply dict_get_none. intros kv I F. subst n. pose proof (group_names _ _ _ _ _ L I) as G.
    apply (suffix_last (txt "_propertie") "s"%char) in G. rewrite LA in G. discriminate. }
  assert (Zs : dict_get sub n = None).
  { apply dict_get_none. intros kv I F. subst n. destruct k; try (injection U as <-; destruct I).
    unfold unpack_subhalo_number in U. destruct (dict_get _ _) as [[]|]; try discriminate.
    destruct (item_at _ 0) as [[]|]; try discriminate. injection U as <-. destruct I as [<-|[]]. discriminate. }
  assert (Zp : dict_get post n = None).
  { apply dict_get_none. intros kv I F. subst n.
    pose proof (post_names f maps (gi_attrs g) post (maps_aside _ _ _ C) (ex_intro _ g (conj HD eq_refl)) P kv I) as O.
    unfold other in O. rewrite E in O. discriminate. }
  assert (Zm : dict_get (get_metadata f) n = None).
  { apply (within_none _ _ _ (get_metadata_within f)). destruct (in_names n _) eqn:J; [|reflexivity].
    apply in_names_iff in J. exfalso. revert LA. 
    repeat (destruct J as [<-|J]; [intro LA; vm_compute in LA; discriminate|]). destruct J. }
  rewrite Zc, Zg, Zs, Zp, Zm. destruct (dict_get maps n); reflexivity.
Qed.
End WithParams.

(** C142: property constraints with several columns and with bounds that are arrays. *)
From Coq Require Import List ZArith QArith Bool Lia Sorted.
From Verif Require Import Base BaseLemmas MaskModel MaskSpec MaskListProofs MaskGeomProofs MaskProofs MaskHistProofs MaskTheorems BoundModel.
Import ListNotations.
Open Scope Z_scope.

(** The selected rows of a key, in ascending order. *)
Definition chosen (st : mask_state) (key : nat) (rows : list Z) : Prop :=
  StronglySorted Z.lt rows /\ forall i, In i rows <-> selected st key i.
(** The bound of the [n]-th of them. *)
Definition bound_of (b : bound) (n : nat) : option Q :=
  match b with
  | Single q => Some q
  | Several [q] => Some q
  | Several l => nth_error l n
  end.
(** A bound fits: a quantity, one number or a number for each selected row. *)
Definition fits (b : bound) (n : nat) : Prop :=
  match b with Single _ => True | Several l => length l = 1%nat \/ length l = n end.

(** * Rows of a mask *)

Fixpoint rows_from (s : Z) (m : list bool) : list Z :=
  match m with [] => [] | b :: m' => if b then s :: rows_from (s + 1) m' else rows_from (s + 1) m' end.

Lemma rows_from_ge m : forall s i, In i (rows_from s m) -> s <= i.
Proof.
  induction m as [|b m IH]; intros s i H; [destruct H|]. cbn in H. destruct b.
  - destruct H as [<-|H]; [lia|]. apply IH in H. lia.
  - apply IH in H. lia.
Qed.
Lemma rows_from_sorted m : forall s, StronglySorted Z.lt (rows_from s m).
Proof.
  induction m as [|b m IH]; intro s; cbn; [constructor|]. destruct b; [|apply IH]. constructor; [apply IH|].
  apply Forall_forall. intros i H. apply rows_from_ge in H. lia.
Qed.
Lemma rows_from_where m : forall s, map fst (filter (fun ib : Z * bool => snd ib) (combine (zrange s (s + zlen m)) m)) = rows_from s m.
Proof.
  induction m as [|b m IH]; intro s.
  - rewrite zlen_nil, Z.add_0_r, zrange_nil by lia. reflexivity.
  - rewrite zlen_cons, (zrange_cons s) by (pose proof (zlen_nonneg m); lia). replace (s + (1 + zlen m)) with (s + 1 + zlen m) by lia.
    cbn [combine filter snd]. destruct b; cbn [map fst rows_from]; rewrite IH; reflexivity.
Qed.
Lemma rows_true_from m : rows_true m = rows_from 0 m.
Proof. rewrite <- where_true_rows. exact (rows_from_where m 0). Qed.

Lemma length_rows_from m : forall s, length (rows_from s m) = count_true m.
Proof. unfold count_true. induction m as [|b m IH]; intro s; cbn; [reflexivity|]. destruct b; cbn; now rewrite IH. Qed.
Lemma length_compress {A} m : forall l : list A, length m = length l -> length (compress m l) = count_true m.
Proof.
  unfold count_true. induction m as [|b m IH]; intros [|x l] H; cbn in *; try lia. destruct b; cbn; rewrite IH by lia; reflexivity.
Qed.
Lemma compress_row {A} m : forall s (l : list A) n i, length m = length l -> nth_error (rows_from s m) n = Some i ->
  nth_error (compress m l) n = nth_error l (Z.to_nat (i - s)).
Proof.
  induction m as [|b m IH]; intros s [|x l] n i H E; cbn in *; try lia; [destruct n; discriminate|].
  assert (Next : forall n, nth_error (rows_from (s + 1) m) n = Some i -> nth_error (x :: l) (Z.to_nat (i - s)) = nth_error l (Z.to_nat (i - (s + 1)))).
  { intros k K. apply nth_error_In, rows_from_ge in K. replace (Z.to_nat (i - s)) with (S (Z.to_nat (i - (s + 1)))) by lia. reflexivity. }
  destruct b; [destruct n as [|n]|].
  - cbn in E. injection E as <-. rewrite Z.sub_diag. reflexivity.
  - cbn in E. cbn [compress nth_error]. rewrite (Next n E). apply IH; [lia|exact E].
  - rewrite (Next n E). apply IH; [lia|exact E].
Qed.
Lemma assign_rows m : forall s new i, length new = count_true m ->
  In i (rows_from s (masked_assign m m new)) <-> exists n, nth_error (rows_from s m) n = Some i /\ nth_error new n = Some true.
Proof.
  unfold count_true. induction m as [|b m IH]; intros s new i H; cbn in *.
  - split; [tauto|]. intros ([|n] & E & _); discriminate.
  - destruct b; cbn in *.
    + destruct new as [|x new]; cbn in H; [lia|]. cbn. specialize (IH (s + 1) new i ltac:(lia)). destruct x; cbn; rewrite IH; split.
      * intros [<-|(n & E)]; [exists 0%nat; split; reflexivity|exists (S n); exact E].
      * intros ([|n] & E & F); cbn in *; [left; congruence|right; exists n; split; assumption].
      * intros (n & E); exists (S n); exact E.
      * intros ([|n] & E & F); cbn in *; [discriminate|exists n; split; assumption].
    + apply IH. exact H.
Qed.

(** * Comparisons *)

Lemma compared_fits f data b : fits b (length data) -> exists r, compared f data b = Ok r /\ length r = length data /\
  forall n, nth_error r n = Some true <-> exists q v, bound_of b n = Some q /\ nth_error data n = Some v /\ f q v = true.
Proof.
  assert (One : forall q n, nth_error (map (f q) data) n = Some true <-> exists q' v, Some q = Some q' /\ nth_error data n = Some v /\ f q' v = true).
  { intros q n. rewrite nth_error_map. destruct (nth_error data n) as [v|]; cbn.
    - split; [intros [= E]; exists q, v; auto|intros (q' & v' & [= <-] & [= <-] & E); now rewrite E].
    - split; [discriminate|intros (q' & v' & _ & [=] & _)]. }
  destruct b as [q|l]; cbn [fits compared].
  - intros _. eexists. split; [reflexivity|]. split; [apply map_length|]. apply One.
  - intro F. destruct (Nat.eqb (length l) (length data)) eqn:E.
    + apply Nat.eqb_eq in E. eexists. split; [reflexivity|]. split; [rewrite map_length, combine_length; lia|]. intro n.
      assert (B : forall n, (n < length data)%nat -> bound_of (Several l) n = nth_error l n).
      { intros k K. cbn. destruct l as [|a [|b l]]; try reflexivity. cbn in E. assert (k = 0)%nat as -> by lia. reflexivity. }
      rewrite nth_error_map. destruct (nth_error data n) as [v|] eqn:D.
      * pose proof (proj1 (nth_error_Some data n) ltac:(congruence)) as K. rewrite (B n K).
        destruct (nth_error l n) as [q|] eqn:L; [|apply nth_error_None in L; lia].
        assert (C : nth_error (combine l data) n = Some (q, v)).
        { clear -D L. revert data n D L. induction l as [|a l IH]; intros [|d data] [|n] D L; cbn in *; try discriminate; [congruence|now apply IH]. }
        rewrite C. cbn. split; [intros [= T]; exists q, v; auto|intros (q' & v' & [= <-] & [= <-] & T); now rewrite T].
      * assert (C : nth_error (combine l data) n = None).
        { apply nth_error_None. rewrite combine_length. apply nth_error_None in D. lia. }
        rewrite C. cbn. split; [discriminate|intros (q' & v' & _ & [=] & _)].
    + apply Nat.eqb_neq in E. destruct F as [F|F]; [|contradiction]. destruct l as [|q [|? ?]]; cbn in F; try lia.
      eexists. split; [reflexivity|]. split; [apply map_length|]. apply One.
Qed.

Lemma compared_misfit f data b : ~ fits b (length data) -> compared f data b = Err ValueError \/
  (length data = 1%nat /\ exists r, compared f data b = Ok r /\ length r <> 1%nat).
Proof.
  destruct b as [q|l]; cbn [fits compared]; [tauto|]. intro H. destruct (Nat.eqb (length l) (length data)) eqn:E; [apply Nat.eqb_eq in E; tauto|].
  destruct l as [|q [|q' l]]; cbn in H; [| tauto |].
  - destruct data as [|v [|v' data]]; [left; reflexivity| |left; reflexivity]. right. split; [reflexivity|]. eexists. split; [reflexivity|]. cbn. lia.
  - destruct data as [|v [|v' data]]; [left; reflexivity| |left; reflexivity]. right. split; [reflexivity|]. eexists. split; [reflexivity|]. cbn. lia.
Qed.

Lemma both_ok a b : length a = length b -> exists r, both a b = Ok r /\ length r = length a /\
  forall n, nth_error r n = Some true <-> nth_error a n = Some true /\ nth_error b n = Some true.
Proof.
  intro H. unfold both. rewrite (proj2 (Nat.eqb_eq _ _) H). eexists. split; [reflexivity|]. split; [rewrite map_length, combine_length; lia|].
  revert b H. induction a as [|x a IH]; intros [|y b] H n; cbn in H; try lia.
  - destruct n; cbn; intuition discriminate.
  - destruct n as [|n]; cbn; [|apply IH; lia]. destruct x, y; cbn; intuition congruence.
Qed.

Lemma assigned_ok cur new : length new = count_true cur -> assigned cur new = Ok (masked_assign cur cur new).
Proof.
  intro H. unfold assigned. destruct new as [|b [|c new]].
  - rewrite (proj2 (Nat.eqb_eq _ _) H). reflexivity.
  - rewrite <- H. reflexivity.
  - rewrite (proj2 (Nat.eqb_eq _ _) H). reflexivity.
Qed.
Lemma assigned_bad cur new : length new <> count_true cur -> length new <> 1%nat -> assigned cur new = Err ValueError.
Proof.
  intros H K. unfold assigned. destruct new as [|b [|c new]]; [| cbn in K; lia |];
    (destruct (Nat.eqb _ _) eqn:E; [apply Nat.eqb_eq in E; contradiction|reflexivity]).
Qed.

(** What happens to the mask of a group. *)
Definition new_values (cur : list bool) (vs : list Q) (lower upper : bound) : res (list bool) :=
  do a <- compared qltb (compress cur vs) lower;
  do b <- compared (fun q v => Qle_bool v q) (compress cur vs) upper;
  do n <- both a b;
  assigned cur n.

Lemma new_values_fits cur vs lower upper : length cur = length vs -> fits lower (count_true cur) -> fits upper (count_true cur) ->
  exists new, new_values cur vs lower upper = Ok new /\
    forall i, In i (rows_true new) <-> exists n lo hi v, nth_error (rows_true cur) n = Some i /\ nth_error vs (Z.to_nat i) = Some v
      /\ bound_of lower n = Some lo /\ bound_of upper n = Some hi /\ (lo < v)%Q /\ (v <= hi)%Q.
Proof.
  intros L Fl Fu. pose proof (length_compress cur vs L) as C. rewrite <- C in Fl, Fu.
  destruct (compared_fits qltb _ _ Fl) as (a & Ea & La & Ha). destruct (compared_fits (fun q v => Qle_bool v q) _ _ Fu) as (b & Eb & Lb & Hb).
  destruct (both_ok a b ltac:(lia)) as (c & Ec & Lc & Hc). exists (masked_assign cur cur c). unfold new_values. rewrite Ea. cbn [bind]. rewrite Eb. cbn [bind].
  rewrite Ec. cbn [bind]. split; [apply assigned_ok; lia|]. intro i. rewrite !rows_true_from, assign_rows by lia. split.
  - intros (n & R & T). apply Hc in T as [Ta Tb]. apply Ha in Ta as (lo & v & Bl & D & Q1). apply Hb in Tb as (hi & v' & Bu & D' & Q2).
    rewrite D in D'. injection D' as <-. rewrite (compress_row cur 0 vs n i L R), Z.sub_0_r in D.
    exists n, lo, hi, v. apply qltb_iff in Q1. apply Qle_bool_iff in Q2. auto 10.
  - intros (n & lo & hi & v & R & V & Bl & Bu & Q1 & Q2). exists n. split; [exact R|]. apply Hc.
    assert (D : nth_error (compress cur vs) n = Some v) by (rewrite (compress_row cur 0 vs n i L R), Z.sub_0_r; exact V).
    split; [apply Ha; exists lo, v|apply Hb; exists hi, v]; repeat split; try assumption; [now apply qltb_iff|now apply Qle_bool_iff].
Qed.

Lemma new_values_misfit cur vs lower upper : length cur = length vs -> ~ (fits lower (count_true cur) /\ fits upper (count_true cur)) ->
  new_values cur vs lower upper = Err ValueError.
Proof.
  intros L F. pose proof (length_compress cur vs L) as C. rewrite <- C in F.
  assert (Dec : forall b n, fits b n \/ ~ fits b n).
  { intros [q|l] n; cbn; [left; exact I|]. destruct (Nat.eq_dec (length l) 1), (Nat.eq_dec (length l) n); tauto. }
  unfold new_values. destruct (Dec lower (length (compress cur vs))) as [Fl|Fl].
  - assert (Fu : ~ fits upper (length (compress cur vs))) by tauto.
    destruct (compared_fits qltb _ _ Fl) as (a & -> & La & _). cbn [bind].
    destruct (compared_misfit (fun q v => Qle_bool v q) _ _ Fu) as [-> | (D & b & -> & Lb)]; [reflexivity|]. cbn [bind].
    unfold both. destruct (Nat.eqb _ _) eqn:E; [apply Nat.eqb_eq in E; lia|reflexivity].
  - destruct (compared_misfit qltb _ _ Fl) as [-> | (D & a & -> & La)]; [reflexivity|]. cbn [bind].
    destruct (compared (fun q v => Qle_bool v q) (compress cur vs) upper) as [b|e] eqn:E.
    + cbn [bind]. unfold both. destruct (Nat.eqb _ _) eqn:E2; [|reflexivity]. apply Nat.eqb_eq in E2. cbn [bind].
      apply assigned_bad; rewrite map_length, combine_length; lia.
    + cbn [bind]. f_equal. destruct (Dec upper (length (compress cur vs))) as [G|G].
      * destruct (compared_fits (fun q v => Qle_bool v q) _ _ G) as (r & X & _). congruence.
      * destruct (compared_misfit (fun q v => Qle_bool v q) _ _ G) as [X|(_ & r & X & _)]; congruence.
Qed.

(** * Theorems *)

Lemma chosen_rows mm st key l cur size : wf_meta mm -> reachable mm st ->
  convert_masks_to_bool mm (ms_masks st) = InBools l -> nth_error l key = Some (cur, size) -> chosen st key (rows_true cur).
Proof.
  intros W R El Ek. destruct (reachable_good _ _ W R) as [_ Hm]. destruct W as (_ & Hf & _). split.
  - rewrite rows_true_from. apply rows_from_sorted.
  - intro i. unfold selected. rewrite <- (rows_to_bool mm (ms_masks st) key i Hf Hm), El. cbn. rewrite Ek. reflexivity.
Qed.
Lemma sorted_unique : forall a b, StronglySorted Z.lt a -> StronglySorted Z.lt b -> (forall i, In i a <-> In i b) -> a = b.
Proof.
  induction a as [|x a IH]; intros b A B H.
  - destruct b as [|y b]; [reflexivity|]. destruct (proj2 (H y)); left; reflexivity.
  - destruct b as [|y b]; [destruct (proj1 (H x)); left; reflexivity|].
    apply StronglySorted_inv in A as [A Fa]. apply StronglySorted_inv in B as [B Fb]. rewrite Forall_forall in Fa, Fb.
    assert (x = y) as ->.
    { destruct (proj1 (H x) (or_introl eq_refl)) as [|I]; [congruence|]. destruct (proj2 (H y) (or_introl eq_refl)) as [|J]; [congruence|].
      apply Fb in I. apply Fa in J. lia. }
    f_equal. apply IH; [exact A|exact B|]. intro i. split; intro I.
    + destruct (proj1 (H i) (or_intror I)) as [<-|J]; [|exact J]. apply Fa in I. lia.
    + destruct (proj2 (H i) (or_intror I)) as [<-|J]; [|exact J]. apply Fb in I. lia.
Qed.

Section Calls.
  Context (mm : mask_meta) (st : mask_state) (key : nat).
  Hypothesis W : wf_meta mm.
  Hypothesis Rc : reachable mm st.
  Hypothesis K : (key < length (mm_keys mm))%nat.

  Lemma key_mask : exists l cur size mk, convert_masks_to_bool mm (ms_masks st) = InBools l /\ nth_error l key = Some (cur, size)
    /\ nth_error (mm_keys mm) key = Some mk /\ zlen cur = key_total mk.
  Proof.
    destruct (reachable_good _ _ W Rc) as [_ Hm]. pose proof W as (_ & Hf & _). pose proof (good_to_bool mm _ Hf Hm) as Hb.
    destruct (constrain_property_bools mm (ms_masks st)) as [l El]. rewrite El in Hb. cbn in Hb.
    destruct (nth_error l key) as [[cur size]|] eqn:Ek.
    - destruct (Forall2_nth_r _ _ _ _ _ Hb Ek) as (mk & Hk & [H1 _]). exists l, cur, size, mk. auto.
    - apply nth_error_None in Ek. rewrite <- (Forall2_len _ _ _ Hb) in Ek. lia.
  Qed.
  Lemma as_bools_same : same_selection st (mk_mask_state (ms_constrained st) (ms_cell_mask st) (convert_masks_to_bool mm (ms_masks st))).
  Proof.
    destruct (reachable_good _ _ W Rc) as [_ Hm]. pose proof W as (_ & Hf & _). intros k i. unfold selected. cbn. symmetry. now apply rows_to_bool.
  Qed.
End Calls.

(** Datasets with several columns are refused, whatever the bounds; the selection stays. *)
Theorem C142_columns : forall mm st key rows lower upper, wf_meta mm -> reachable mm st -> (key < length (mm_keys mm))%nat ->
  exists st', constrain_bounds mm key (Some (Table rows)) lower upper st = (st', Some ValueError)
    /\ same_selection st st' /\ ms_constrained st' = ms_constrained st.
Proof.
  intros mm st key rows lower upper W Rc K. destruct (key_mask mm st key W Rc K) as (l & cur & size & mk & El & Ek & _).
  pose proof (as_bools_same mm st W Rc) as Sm. unfold constrain_bounds. rewrite El in *. rewrite Ek.
  eexists. split; [reflexivity|]. split; [exact Sm|reflexivity].
Qed.

(** With one number for each particle and quantities as bounds it is the constraint of C14. *)
Theorem C142_numbers : forall mm st key vals lower upper, wf_meta mm -> reachable mm st -> ok_op mm (OpProperty key (Some vals) lower upper) ->
  constrain_bounds mm key (Some (Numbers vals)) (Single lower) (Single upper) st = constrain_property mm key (Some vals) lower upper st.
Proof.
  intros mm st key vals lower upper W Rc Ok'. unfold constrain_bounds, constrain_property.
  destruct (constrain_property_bools mm (ms_masks st)) as [l El]. rewrite El. destruct (nth_error l key) as [[cur size]|] eqn:Ek; [|reflexivity].
  destruct (reachable_good _ _ W Rc) as [_ Hm]. pose proof W as (_ & Hf & _). pose proof (good_to_bool mm _ Hf Hm) as Hb. rewrite El in Hb. cbn in Hb.
  destruct (Forall2_nth_r _ _ _ _ _ Hb Ek) as (mk & Hk & [H1 _]). cbn in H1, Ok'. specialize (Ok' mk Hk).
  assert (L : length cur = length vals) by (unfold zlen in *; lia).
  cbn [compared bind]. unfold both. rewrite !map_length, Nat.eqb_refl. cbn [bind].
  assert (E : map (fun xy : bool * bool => fst xy && snd xy) (combine (map (qltb lower) (compress cur vals)) (map (fun v => Qle_bool v upper) (compress cur vals)))
              = map (fun v => qltb lower v && Qle_bool v upper) (compress cur vals)).
  { induction (compress cur vals) as [|v d IH]; [reflexivity|]. cbn. now rewrite IH. }
  rewrite E, assigned_ok by (rewrite map_length; now apply length_compress). reflexivity.
Qed.

(** Bounds that are arrays are counted along the rows that are selected already. *)
Theorem C142_bounds : forall mm st key vals lower upper rows, wf_meta mm -> reachable mm st -> (key < length (mm_keys mm))%nat ->
  ok_op mm (OpProperty key (Some vals) 0 0) -> chosen st key rows -> fits lower (length rows) -> fits upper (length rows) ->
  exists st', constrain_bounds mm key (Some (Numbers vals)) lower upper st = (st', None) /\ ms_constrained st' = Some CProperty
    /\ (forall i, selected st' key i <-> exists n lo hi v, nth_error rows n = Some i /\ nth_error vals (Z.to_nat i) = Some v
          /\ bound_of lower n = Some lo /\ bound_of upper n = Some hi /\ (lo < v)%Q /\ (v <= hi)%Q)
    /\ (forall k i, k <> key -> selected st' k i <-> selected st k i).
Proof.
  intros mm st key vals lower upper rows W Rc K Ok' Ch Fl Fu. destruct (key_mask mm st key W Rc K) as (l & cur & size & mk & El & Ek & Hk & H1).
  cbn in Ok'. specialize (Ok' mk Hk). assert (L : length cur = length vals) by (unfold zlen in *; lia).
  pose proof (chosen_rows mm st key l cur size W Rc El Ek) as Ch'.
  assert (rows = rows_true cur) as -> .
  { destruct Ch as [S1 I1], Ch' as [S2 I2]. apply sorted_unique; [exact S1|exact S2|]. intro i. rewrite I1, I2. reflexivity. }
  rewrite rows_true_from, length_rows_from in Fl, Fu. destruct (new_values_fits cur vals lower upper L Fl Fu) as (new & En & Hn).
  pose proof (as_bools_same mm st W Rc) as Sm. unfold same_selection, selected in Sm. cbn [ms_masks] in Sm.
  unfold constrain_bounds. unfold new_values in En. rewrite El in *. rewrite Ek, En.
  eexists. split; [reflexivity|]. split; [reflexivity|]. split.
  - intro i. unfold selected. cbn. rewrite nth_error_upd_eq by (apply nth_error_Some; congruence). apply Hn.
  - intros k i Ne. unfold selected. rewrite Sm. cbn. rewrite nth_error_upd_neq by congruence. reflexivity.
Qed.

(** Other numbers of bounds are refused, the selection stays. *)
Theorem C142_refused : forall mm st key vals lower upper rows, wf_meta mm -> reachable mm st -> (key < length (mm_keys mm))%nat ->
  ok_op mm (OpProperty key (Some vals) 0 0) -> chosen st key rows -> ~ (fits lower (length rows) /\ fits upper (length rows)) ->
  exists st', constrain_bounds mm key (Some (Numbers vals)) lower upper st = (st', Some ValueError)
    /\ same_selection st st' /\ ms_constrained st' = ms_constrained st.
Proof.
  intros mm st key vals lower upper rows W Rc K Ok' Ch F. destruct (key_mask mm st key W Rc K) as (l & cur & size & mk & El & Ek & Hk & H1).
  cbn in Ok'. specialize (Ok' mk Hk). assert (L : length cur = length vals) by (unfold zlen in *; lia).
  pose proof (chosen_rows mm st key l cur size W Rc El Ek) as Ch'.
  assert (rows = rows_true cur) as -> .
  { destruct Ch as [S1 I1], Ch' as [S2 I2]. apply sorted_unique; [exact S1|exact S2|]. intro i. rewrite I1, I2. reflexivity. }
  rewrite rows_true_from, length_rows_from in F. pose proof (new_values_misfit cur vals lower upper L F) as En.
  pose proof (as_bools_same mm st W Rc) as Sm. unfold constrain_bounds. unfold new_values in En. rewrite El in *. rewrite Ek, En.
  eexists. split; [reflexivity|]. split; [exact Sm|reflexivity].
Qed.

(** Without the dataset or the group: KeyError. *)
Theorem C142_unknown : forall mm st key lower upper, wf_meta mm -> reachable mm st ->
  exists st', constrain_bounds mm key None lower upper st = (st', Some KeyError)
    /\ same_selection st st' /\ ms_constrained st' = ms_constrained st.
Proof.
  intros mm st key lower upper W Rc. pose proof (as_bools_same mm st W Rc) as Sm. unfold constrain_bounds.
  destruct (constrain_property_bools mm (ms_masks st)) as [l El]. rewrite El in *. eexists. split; [reflexivity|]. split; [exact Sm|reflexivity].
Qed.

(** Five haloes, of which rows 0, 2 and 4 are selected: with three bounds each, the second is for row 2. *)
Definition three : mask_state := fst (constrain_property ex_soap 0 (Some [5; 1; 6; 2; 7]%Q) 4 9 (new_mask ex_soap)).
Example C142_case :
  masked_rows (ms_masks three) 0 = [0; 2; 4]
  /\ (let r := constrain_bounds ex_soap 0 (Some (Numbers [10; 11; 12; 13; 14]%Q)) (Several [0; 12; 0]%Q) (Several [20; 20; 14]%Q) three in
      snd r = None /\ masked_rows (ms_masks (fst r)) 0 = [0; 4])
  /\ (let r := constrain_bounds ex_soap 0 (Some (Numbers [10; 11; 12; 13; 14]%Q)) (Several [11]%Q) (Single 12) three in
      snd r = None /\ masked_rows (ms_masks (fst r)) 0 = [2])
  /\ snd (constrain_bounds ex_soap 0 (Some (Table [[1]; [1]; [1]; [1]; [1]]%Q)) (Single 0) (Single 2) three) = Some ValueError.
Proof. vm_compute. repeat split; reflexivity. Qed.

(** Arrays of bounds for all particles of the group do not work once some are not selected. *)
Theorem C142_all_particles_refuted :
  ~ (forall mm st vals lower upper, wf_meta mm -> reachable mm st -> ok_op mm (OpProperty 0 (Some vals) 0 0) ->
     length lower = length vals -> length upper = length vals ->
     snd (constrain_bounds mm 0 (Some (Numbers vals)) (Several lower) (Several upper) st) = None).
Proof.
  intro H. specialize (H ex_soap three [10; 11; 12; 13; 14]%Q [0; 0; 0; 0; 0]%Q [9; 9; 9; 9; 9]%Q ex_soap_wf).
  assert (Rc : reachable ex_soap three).
  { exists [OpProperty 0 (Some [5; 1; 6; 2; 7]%Q) 4 9]. split; [|reflexivity]. constructor; [|constructor]. intros mk E. cbn in E. injection E as <-. reflexivity. }
  assert (Ok' : ok_op ex_soap (OpProperty 0 (Some [10; 11; 12; 13; 14]%Q) 0 0)) by (intros mk E; cbn in E; injection E as <-; reflexivity).
  specialize (H Rc Ok' eq_refl eq_refl). vm_compute in H. discriminate.
Qed.

Print Assumptions C142_columns.
Print Assumptions C142_numbers.
Print Assumptions C142_bounds.
Print Assumptions C142_refused.
Print Assumptions C142_unknown.
Print Assumptions C142_case.
Print Assumptions C142_all_particles_refuted.

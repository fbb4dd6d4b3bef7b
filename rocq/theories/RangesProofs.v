(** Proofs about the range readers. *)
From Coq Require Import List ZArith Lia Bool Permutation Sorted.
From Verif Require Import Base BaseLemmas RangesModel RangesSpec.
Import ListNotations.
Open Scope Z_scope.

(** * indices_of, total_rows *)

Lemma indices_of_app r1 r2 : indices_of (r1 ++ r2) = indices_of r1 ++ indices_of r2.
Proof. unfold indices_of. now rewrite flat_map_app. Qed.

Lemma total_rows_cons r l : total_rows (r :: l) = snd r - fst r + total_rows l.
Proof. reflexivity. Qed.

Lemma total_rows_app l m : total_rows (l ++ m) = total_rows l + total_rows m.
Proof. unfold total_rows. now rewrite map_app, sumZ_app. Qed.

Lemma zlen_indices_of l :
  Forall (fun r => fst r <= snd r) l -> zlen (indices_of l) = total_rows l.
Proof.
  induction 1 as [|r l Hr _ IH]; [reflexivity|].
  change (indices_of (r :: l)) with (zrange (fst r) (snd r) ++ indices_of l).
  rewrite zlen_app, zlen_zrange, IH, total_rows_cons. lia.
Qed.

Lemma total_rows_nonneg l :
  Forall (fun r => fst r <= snd r) l -> 0 <= total_rows l.
Proof. intros H. rewrite <- zlen_indices_of by assumption. apply zlen_nonneg. Qed.

Lemma in_bounds_wf n l : Forall (in_bounds n) l -> Forall (fun r => fst r <= snd r) l.
Proof. apply Forall_impl. unfold in_bounds. lia. Qed.

(** * expand_ranges *)

Lemma splice_spec {A} (l1 vals l2 : list A) mid :
  length mid = length vals -> splice (length l1) vals (l1 ++ mid ++ l2) = l1 ++ vals ++ l2.
Proof.
  intros H. unfold splice.
  rewrite firstn_app, Nat.sub_diag, firstn_all, firstn_O, app_nil_r.
  f_equal. f_equal.
  rewrite skipn_app, skipn_all2 by lia. cbn [app].
  replace (length l1 + length vals - length l1)%nat with (length mid) by lia.
  now rewrite skipn_app, skipn_all, Nat.sub_diag.
Qed.

Lemma expand_loop_spec ranges : forall done rest,
  Forall (fun r => fst r <= snd r) ranges ->
  total_rows ranges = zlen rest ->
  expand_loop ranges (zlen done) (done ++ rest) = Ok (done ++ indices_of ranges).
Proof.
  induction ranges as [|[lo up] ranges IH]; intros done rest Hwf Htot.
  - cbn. unfold total_rows in Htot; cbn in Htot.
    destruct rest; [reflexivity|]. rewrite zlen_cons in Htot.
    pose proof (zlen_nonneg rest). lia.
  - inversion Hwf as [|? ? Hr Hwf']; subst. cbn [fst snd] in Hr.
    rewrite total_rows_cons in Htot. cbn [fst snd] in Htot.
    pose proof (total_rows_nonneg _ Hwf') as Hnn.
    cbn [expand_loop].
    assert (Hl : zlen (zrange lo up) = up - lo) by (rewrite zlen_zrange; lia).
    replace ((zlen done <? 0) || (zlen (done ++ rest) <? zlen done + zlen (zrange lo up)))
      with false.
    2:{ rewrite zlen_app, Hl. pose proof (zlen_nonneg done).
        symmetry. apply orb_false_iff. split; apply Z.ltb_ge; lia. }
    set (n := Z.to_nat (up - lo)).
    assert (Hn : length (firstn n rest) = length (zrange lo up)).
    { rewrite firstn_length, zrange_length. fold n. unfold zlen in *. lia. }
    rewrite <- (firstn_skipn n rest) at 1.
    replace (Z.to_nat (zlen done)) with (length done) by (unfold zlen; lia).
    rewrite splice_spec by assumption.
    replace (zlen done + (up - lo)) with (zlen (done ++ zrange lo up))
      by (rewrite zlen_app, Hl; reflexivity).
    rewrite app_assoc.
    rewrite IH; [|assumption|].
    + change (indices_of ((lo, up) :: ranges)) with (zrange lo up ++ indices_of ranges).
      now rewrite app_assoc.
    + unfold zlen in *. rewrite skipn_length. lia.
Qed.

Lemma expand_ranges_spec ranges :
  Forall (fun r => fst r <= snd r) ranges -> expand_ranges ranges = Ok (indices_of ranges).
Proof.
  intros H. unfold expand_ranges.
  pose proof (total_rows_nonneg _ H) as Hnn. fold (total_rows ranges).
  replace (total_rows ranges <? 0) with false by (symmetry; apply Z.ltb_ge; lia).
  apply (expand_loop_spec ranges [] (repeat 0 (Z.to_nat (total_rows ranges)))); [assumption|].
  unfold zlen. rewrite repeat_length. lia.
Qed.

(** * ranges_from_array *)

Lemma ranges_loop_indices values : forall start stop,
  start <= stop ->
  Forall (fun r => fst r < snd r) (ranges_loop start stop values) /\
  indices_of (ranges_loop start stop values) = zrange start (stop + 1) ++ values.
Proof.
  induction values as [|v values IH]; intros start stop H; cbn [ranges_loop].
  - split; [constructor; [cbn; lia|constructor]|]. cbn. now rewrite !app_nil_r.
  - destruct (v =? stop + 1) eqn:E; cbn [negb].
    + apply Z.eqb_eq in E. subst v. destruct (IH start (stop + 1) ltac:(lia)) as [H1 H2].
      split; [assumption|]. rewrite H2, (zrange_snoc start (stop + 1)) by lia.
      now rewrite <- app_assoc.
    + destruct (IH v v ltac:(lia)) as [H1 H2]. split.
      * constructor; [cbn; lia|assumption].
      * cbn [indices_of flat_map] in *. fold (indices_of (ranges_loop v v values)).
        rewrite H2. rewrite (zrange_cons v (v+1)), (zrange_nil (v+1)) by lia. reflexivity.
Qed.

Lemma ranges_from_array_wf l : Forall (fun r => fst r <= snd r) (ranges_from_array l).
Proof.
  destruct l as [|x l]; cbn [ranges_from_array].
  - repeat constructor; cbn; lia.
  - destruct (ranges_loop_indices l x x ltac:(lia)) as [H _].
    eapply Forall_impl; [|exact H]. cbn; intros; lia.
Qed.

Lemma ranges_from_array_indices l : indices_of (ranges_from_array l) = l.
Proof.
  destruct l as [|x l]; [reflexivity|]. cbn [ranges_from_array].
  destruct (ranges_loop_indices l x x ltac:(lia)) as [_ H]. rewrite H.
  rewrite (zrange_cons x (x+1)), (zrange_nil (x+1)) by lia. reflexivity.
Qed.

Lemma ranges_roundtrip l : expand_ranges (ranges_from_array l) = Ok l.
Proof.
  rewrite expand_ranges_spec by apply ranges_from_array_wf.
  now rewrite ranges_from_array_indices.
Qed.

Lemma ranges_loop_head values : forall start stop,
  exists e rest, ranges_loop start stop values = (start, e) :: rest /\ stop + 1 <= e.
Proof.
  induction values as [|v values IH]; intros start stop; cbn [ranges_loop].
  - exists (stop + 1), []. split; [reflexivity|lia].
  - destruct (v =? stop + 1) eqn:E; cbn [negb].
    + destruct (IH start v) as (e & rest & H1 & H2). exists e, rest.
      split; [assumption|]. apply Z.eqb_eq in E. lia.
    + eexists _, _. split; [reflexivity|lia].
Qed.

Lemma ranges_loop_unjoinable values : forall start stop i r1 r2,
  nth_error (ranges_loop start stop values) i = Some r1 ->
  nth_error (ranges_loop start stop values) (S i) = Some r2 ->
  snd r1 <> fst r2.
Proof.
  induction values as [|v values IH]; intros start stop i r1 r2; cbn [ranges_loop].
  - destruct i as [|[|i]]; cbn; discriminate.
  - destruct (v =? stop + 1) eqn:E; cbn [negb].
    + apply IH.
    + destruct i as [|i].
      * cbn [nth_error]. intros [= <-].
        destruct (ranges_loop_head values v v) as (e & rest & Hh & _). rewrite Hh.
        intros [= <-]. cbn. apply Z.eqb_neq in E. congruence.
      * cbn [nth_error]. apply IH.
Qed.

Lemma ranges_from_array_maximal l i r1 r2 :
  nth_error (ranges_from_array l) i = Some r1 ->
  nth_error (ranges_from_array l) (S i) = Some r2 ->
  snd r1 <> fst r2.
Proof.
  destruct l as [|x l]; cbn [ranges_from_array].
  - destruct i as [|[|i]]; cbn; discriminate.
  - apply ranges_loop_unjoinable.
Qed.

Lemma ranges_from_array_nonempty l :
  l <> [] -> Forall (fun r => fst r < snd r) (ranges_from_array l).
Proof.
  destruct l as [|x l]; [congruence|]. intros _. cbn [ranges_from_array].
  apply (proj1 (ranges_loop_indices l x x ltac:(lia))).
Qed.

(** * Unchunked reading *)

(** The rows of a list of ranges as a function (proof device). *)
Definition slice_rows {A B} (col : A -> B) (data : list A) (r : range) : list B :=
  map col (firstn (Z.to_nat (snd r - fst r)) (skipn (Z.to_nat (fst r)) data)).
Definition all_rows {A B} (col : A -> B) (data : list A) (rs : list range) : list B :=
  flat_map (slice_rows col data) rs.

Lemma h5_slice_ok {A B} (col : A -> B) data r :
  in_bounds (zlen data) r -> h5_slice col data r = Ok (slice_rows col data r).
Proof.
  destruct r as [s e]. unfold in_bounds, h5_slice, slice_rows; cbn. intros (H1 & H2 & H3).
  apply Z.leb_le in H1, H2, H3. now rewrite H1, H2, H3.
Qed.

Lemma py_slice_in n s e : 0 <= s -> s <= e -> e <= n -> py_slice n (s, e) = (s, e - s).
Proof.
  intros H1 H2 H3. unfold py_slice. cbn [fst snd]. replace (s <? 0) with false by (symmetry; apply Z.ltb_ge; lia).
  replace (e <? 0) with false by (symmetry; apply Z.ltb_ge; lia). f_equal; lia.
Qed.

Lemma slice_rows_length {A B} (col : A -> B) data r :
  in_bounds (zlen data) r -> zlen (slice_rows col data r) = snd r - fst r.
Proof.
  unfold in_bounds, slice_rows, zlen. intros (H1 & H2 & H3).
  rewrite map_length, firstn_length, skipn_length. lia.
Qed.

Lemma all_rows_length {A B} (col : A -> B) data rs :
  Forall (in_bounds (zlen data)) rs -> zlen (all_rows col data rs) = total_rows rs.
Proof.
  induction 1 as [|r rs Hr _ IH]; [reflexivity|].
  change (all_rows col data (r :: rs)) with (slice_rows col data r ++ all_rows col data rs).
  now rewrite zlen_app, slice_rows_length, IH.
Qed.

Lemma read_direct_ok {A B} (col : A -> B) data s e out i :
  in_bounds (zlen data) (s, e) -> s < e -> 0 <= i -> i + (e - s) <= zlen out ->
  read_direct col data (s, e) out (i, e - s + i) = Ok (splice (Z.to_nat i) (map Some (slice_rows col data (s, e))) out).
Proof.
  intros (H1 & H2 & H3) L I F. cbn [fst snd] in *. unfold read_direct. rewrite !py_slice_in by lia.
  replace (e - s =? e - s + i - i) with true by (symmetry; apply Z.eqb_eq; lia).
  replace (e - s =? 0) with false by (symmetry; apply Z.eqb_neq; lia).
  unfold slice_rows. cbn [fst snd]. rewrite map_map. reflexivity.
Qed.

(** A range for which there is no room left in the buffer. *)
Lemma read_direct_full {A B} (col : A -> B) data s e out i :
  in_bounds (zlen data) (s, e) -> s < e -> 0 <= i -> zlen out < i + (e - s) ->
  read_direct col data (s, e) out (i, e - s + i)
  = if e - s =? 1 then Ok out else Err TypeError.
Proof.
  intros (H1 & H2 & H3) L I F. cbn [fst snd] in *. unfold read_direct. rewrite py_slice_in by lia.
  unfold py_slice. cbn [fst snd]. replace (i <? 0) with false by (symmetry; apply Z.ltb_ge; lia).
  replace (e - s + i <? 0) with false by (symmetry; apply Z.ltb_ge; lia).
  set (m := Z.max 0 (Z.min (e - s + i) (zlen out) - Z.min i (zlen out))).
  replace (e - s =? m) with false by (symmetry; apply Z.eqb_neq; lia).
  destruct (e - s =? 1) eqn:E; [|reflexivity]. apply Z.eqb_eq in E.
  replace m with 0 by lia. cbn [Z.to_nat repeat concat]. f_equal. unfold splice.
  cbn [length app]. rewrite Nat.add_0_r. apply firstn_skipn.
Qed.

Lemma skipn_cons_nth {A} (l : list A) n x :
  nth_error l n = Some x -> skipn n l = x :: skipn (S n) l.
Proof.
  revert n. induction l as [|y l IH]; intros [|n] H; cbn in H; try discriminate.
  - now injection H as ->.
  - cbn [skipn]. now apply IH.
Qed.

Lemma slice_rows_are {A B} (col : A -> B) data r :
  in_bounds (zlen data) r ->
  rows_are col data (zrange (fst r) (snd r)) (map Some (slice_rows col data r)).
Proof.
  destruct r as [s e]. unfold in_bounds; cbn. intros (H1 & H2 & H3).
  unfold slice_rows; cbn [fst snd]. rewrite map_map.
  remember (Z.to_nat (e - s)) as k eqn:Hk. revert s H1 H2 Hk.
  induction k as [|k IH]; intros s H1 H2 Hk.
  - rewrite zrange_nil by lia. constructor.
  - rewrite zrange_cons by lia.
    destruct (nth_error data (Z.to_nat s)) as [x|] eqn:Hx.
    2:{ apply nth_error_None in Hx. unfold zlen in H3. lia. }
    rewrite (skipn_cons_nth _ _ _ Hx). cbn [firstn map]. constructor.
    + split; [lia|]. exists x. auto.
    + replace (S (Z.to_nat s)) with (Z.to_nat (s + 1)) by lia. apply IH; lia.
Qed.

Lemma all_rows_are {A B} (col : A -> B) data rs :
  Forall (in_bounds (zlen data)) rs ->
  rows_are col data (indices_of rs) (map Some (all_rows col data rs)).
Proof.
  induction 1 as [|r rs Hr _ IH]; [constructor|].
  change (indices_of (r :: rs)) with (zrange (fst r) (snd r) ++ indices_of rs).
  change (all_rows col data (r :: rs)) with (slice_rows col data r ++ all_rows col data rs).
  rewrite map_app. apply Forall2_app; [now apply slice_rows_are|exact IH].
Qed.

Lemma rows_are_det {A B} (col : A -> B) data idx o1 o2 :
  rows_are col data idx o1 -> rows_are col data idx o2 -> o1 = o2.
Proof.
  intros H. revert o2. induction H as [|i o idx o1 (H0 & row & Hr & Ho) _ IH];
    intros o2 H2; inversion H2; subst; [reflexivity|].
  destruct H3 as (_ & row' & Hr' & ->). rewrite Hr in Hr'. injection Hr' as ->.
  f_equal. now apply IH.
Qed.

Lemma read_loop_spec {A B} (col : A -> B) data rs : forall (done : list B) rest,
  Forall (in_bounds (zlen data)) rs ->
  total_rows rs <= zlen rest ->
  read_loop col data rs (zlen done) (map Some done ++ rest)
  = Ok (map Some (done ++ all_rows col data rs) ++ skipn (Z.to_nat (total_rows rs)) rest).
Proof.
  induction rs as [|[s e] rs IH]; intros done rest Hin Htot.
  - cbn. now rewrite app_nil_r.
  - inversion Hin as [|? ? Hr Hin']; subst.
    pose proof (total_rows_nonneg _ (in_bounds_wf _ _ Hin')) as Hnn.
    rewrite total_rows_cons in *. cbn [fst snd] in *.
    change (all_rows col data ((s,e) :: rs))
      with (slice_rows col data (s,e) ++ all_rows col data rs).
    cbn [read_loop]. pose proof (slice_rows_length col data _ Hr) as Hlen. cbn in Hlen.
    destruct Hr as (Hr1 & Hr2 & Hr3). cbn [fst snd] in *.
    destruct (e =? s) eqn:E.
    + apply Z.eqb_eq in E. subst e.
      assert (slice_rows col data (s, s) = []) as ->.
      { unfold zlen in Hlen. destruct (slice_rows col data (s, s)); [reflexivity|].
        cbn in Hlen. lia. }
      rewrite IH by (assumption || lia). cbn [app]. do 4 f_equal. lia.
    + apply Z.eqb_neq in E.
      rewrite read_direct_ok
        by (try rewrite zlen_app, zlen_map; try (repeat split; cbn); unfold zlen in *; lia).
      set (n := Z.to_nat (e - s)).
      replace (Z.to_nat (zlen done)) with (length (map (@Some B) done))
        by (rewrite map_length; unfold zlen; lia).
      rewrite <- (firstn_skipn n rest) at 1.
      rewrite splice_spec.
      2:{ rewrite firstn_length, map_length. unfold zlen in *. lia. }
      rewrite app_assoc, <- map_app.
      replace (zlen done + (e - s)) with (zlen (done ++ slice_rows col data (s, e)))
        by (rewrite zlen_app; lia).
      rewrite IH; [|assumption|unfold zlen in *; rewrite skipn_length; lia].
      rewrite <- app_assoc. do 2 f_equal.
      assert (Hsk : forall X (l : list X) a b, skipn a (skipn b l) = skipn (b + a) l).
      { intros X l a b. revert l. induction b; intros l; [reflexivity|].
        destruct l; [now rewrite !skipn_nil|]. cbn. apply IHb. }
      rewrite Hsk. f_equal. subst n. lia.
Qed.

Lemma np_empty_ok {B} n : 0 <= n -> @np_empty B n = Ok (repeat None (Z.to_nat n)).
Proof.
  intros H. unfold np_empty.
  now replace (n <? 0) with false by (symmetry; apply Z.ltb_ge; lia).
Qed.

Lemma skipn_repeat {A} (x : A) n m : skipn n (repeat x m) = repeat x (m - n).
Proof.
  revert m. induction n; intros m; [now rewrite Nat.sub_0_r|].
  destruct m; [reflexivity|]. cbn. apply IHn.
Qed.

Lemma unchunked_general {A B} (col : A -> B) data rs n :
  Forall (in_bounds (zlen data)) rs ->
  total_rows rs <= n ->
  read_ranges_unchunked col data rs n
  = Ok (map Some (all_rows col data rs)
            ++ repeat None (Z.to_nat (n - total_rows rs))).
Proof.
  intros H Hn. pose proof (total_rows_nonneg _ (in_bounds_wf _ _ H)) as Hnn.
  unfold read_ranges_unchunked. rewrite np_empty_ok by lia. cbn [bind].
  pose proof (read_loop_spec col data rs [] (repeat None (Z.to_nat n)) H) as R.
  cbn [map app] in R. change (zlen (@nil B)) with 0 in R. rewrite R.
  - rewrite skipn_repeat. do 3 f_equal. lia.
  - unfold zlen. rewrite repeat_length. lia.
Qed.

Lemma unchunked_exact {A B} (col : A -> B) data rs :
  Forall (in_bounds (zlen data)) rs ->
  read_ranges_unchunked col data rs (total_rows rs)
  = Ok (map Some (all_rows col data rs)).
Proof.
  intros H. rewrite unchunked_general by (assumption || lia).
  rewrite Z.sub_diag. cbn. now rewrite app_nil_r.
Qed.

(** Buffers that are too small: nothing but ranges of one row can be left over. *)
Lemma read_loop_left {A B} (col : A -> B) data rs : forall already buf,
  Forall (in_bounds (zlen data)) rs -> zlen buf <= already ->
  read_loop col data rs already buf
  = if forallb (fun r => snd r - fst r <=? 1) rs then Ok buf else Err TypeError.
Proof.
  induction rs as [|[s e] rs IH]; intros already buf Hin Ha; [reflexivity|].
  inversion Hin as [|? ? Hr Hin']; subst. cbn [read_loop forallb fst snd].
  assert (P : 0 <= zlen buf) by (unfold zlen; lia).
  pose proof Hr as (H1 & H2 & H3). cbn [fst snd] in *.
  destruct (e =? s) eqn:E.
  - apply Z.eqb_eq in E. replace (e - s <=? 1) with true by (symmetry; apply Z.leb_le; lia). now apply IH.
  - apply Z.eqb_neq in E. rewrite read_direct_full by (assumption || lia).
    destruct (e - s =? 1) eqn:E1.
    + apply Z.eqb_eq in E1. replace (e - s <=? 1) with true by (symmetry; apply Z.leb_le; lia). apply IH; [assumption|lia].
    + apply Z.eqb_neq in E1. replace (e - s <=? 1) with false by (symmetry; apply Z.leb_gt; lia). reflexivity.
Qed.

Lemma read_loop_small {A B} (col : A -> B) data rs : forall (done : list B) rest,
  Forall (in_bounds (zlen data)) rs -> zlen rest < total_rows rs ->
  (exists pre post, rs = pre ++ post /\ total_rows pre = zlen rest /\ Forall (fun r => snd r - fst r <= 1) post
     /\ read_loop col data rs (zlen done) (map Some done ++ rest) = Ok (map Some (done ++ all_rows col data pre)))
  \/ ((forall pre post, rs = pre ++ post -> total_rows pre = zlen rest -> Exists (fun r => 1 < snd r - fst r) post)
      /\ read_loop col data rs (zlen done) (map Some done ++ rest) = Err TypeError).
Proof.
  induction rs as [|[s e] rs IH]; intros done rest Hin Hlt.
  { unfold total_rows in Hlt. cbn in Hlt. unfold zlen in Hlt. lia. }
  inversion Hin as [|? ? Hr Hin']; subst. rewrite total_rows_cons in Hlt. cbn [fst snd] in Hlt.
  pose proof Hr as (H1 & H2 & H3). cbn [fst snd] in H1, H2, H3.
  pose proof (slice_rows_length col data _ Hr) as Hlen. cbn [fst snd] in Hlen.
  destruct (Z_le_gt_dec (e - s) (zlen rest)) as [F|F].
  - (* the range fits *)
    assert (R : read_loop col data ((s, e) :: rs) (zlen done) (map Some done ++ rest)
                = read_loop col data rs (zlen (done ++ slice_rows col data (s, e)))
                    (map Some (done ++ slice_rows col data (s, e)) ++ skipn (Z.to_nat (e - s)) rest)).
    { cbn [read_loop]. rewrite zlen_app, Hlen. destruct (e =? s) eqn:E.
      - apply Z.eqb_eq in E. subst e. assert (N : slice_rows col data (s, s) = []).
        { destruct (slice_rows col data (s, s)); [reflexivity|]. unfold zlen in Hlen. cbn in Hlen. lia. }
        rewrite N, app_nil_r, Z.sub_diag, Z.add_0_r. reflexivity.
      - apply Z.eqb_neq in E. rewrite read_direct_ok
          by (try rewrite zlen_app, zlen_map; try assumption; try (unfold zlen in *; lia); lia).
        replace (Z.to_nat (zlen done)) with (length (map (@Some B) done)) by (rewrite map_length; unfold zlen; lia).
        rewrite <- (firstn_skipn (Z.to_nat (e - s)) rest) at 1. rewrite splice_spec.
        2:{ rewrite firstn_length, map_length. unfold zlen in *. lia. }
        rewrite app_assoc, <- map_app. reflexivity. }
    rewrite R. assert (L : zlen (skipn (Z.to_nat (e - s)) rest) = zlen rest - (e - s)).
    { unfold zlen in *. rewrite skipn_length. lia. }
    destruct (IH (done ++ slice_rows col data (s, e)) (skipn (Z.to_nat (e - s)) rest) Hin' ltac:(lia))
      as [(pre & post & -> & T & O & E)|(N & E)].
    + left. exists ((s, e) :: pre), post. split; [reflexivity|]. split; [rewrite total_rows_cons; cbn [fst snd]; lia|].
      split; [exact O|]. rewrite E. rewrite <- app_assoc. reflexivity.
    + destruct (Z.eq_dec (zlen rest) 0) as [Z0|Z0].
      * (* an empty buffer: the loop is that of ranges left over *)
        pose proof (read_loop_left col data rs (zlen (done ++ slice_rows col data (s, e)))
                      (map Some (done ++ slice_rows col data (s, e)) ++ skipn (Z.to_nat (e - s)) rest) Hin') as Q.
        rewrite Q in E by (rewrite zlen_app, zlen_map; lia).
        destruct (forallb (fun r : Z * Z => snd r - fst r <=? 1) rs) eqn:Fb; [discriminate|].
        right. split.
        { intros [|[s' e'] pre] post Eq T; cbn [app] in Eq.
          - subst post. apply Exists_cons_tl. apply Exists_exists.
            assert (X : exists r, In r rs /\ (snd r - fst r <=? 1) = false).
            { clear -Fb. induction rs as [|r rs IH]; [discriminate|]. cbn [forallb] in Fb. apply andb_false_iff in Fb.
              destruct Fb as [Fb|Fb]; [exists r; split; [left; reflexivity|exact Fb]|].
              destruct (IH Fb) as (x & I & X). exists x. split; [right; exact I|exact X]. }
            destruct X as (r & I & X). exists r. split; [exact I|]. apply Z.leb_gt in X. lia.
          - injection Eq as <- <- Eq. rewrite total_rows_cons in T. cbn [fst snd] in T. apply (N pre post Eq). lia. }
        { rewrite Q by (rewrite zlen_app, zlen_map; lia). reflexivity. }
      * right. split; [|exact E]. intros [|[s' e'] pre] post Eq T; cbn [app] in Eq.
        -- unfold total_rows in T. cbn in T. lia.
        -- injection Eq as <- <- Eq. rewrite total_rows_cons in T. cbn [fst snd] in T. apply (N pre post Eq). lia.
  - (* it does not *)
    assert (E : e - s <> 0) by (unfold zlen in F; lia). cbn [read_loop].
    replace (e =? s) with false by (symmetry; apply Z.eqb_neq; lia).
    rewrite read_direct_full by (try rewrite zlen_app, zlen_map; try assumption; try (unfold zlen in *; lia); lia).
    destruct (e - s =? 1) eqn:E1.
    + apply Z.eqb_eq in E1. assert (rest = []) as -> by (destruct rest; [reflexivity|unfold zlen in F; cbn in F; lia]).
      rewrite read_loop_left by (try assumption; rewrite zlen_app, zlen_map; change (zlen (@nil (option B))) with 0; lia).
      destruct (forallb (fun r : Z * Z => snd r - fst r <=? 1) rs) eqn:Fb.
      * left. exists [], ((s, e) :: rs). split; [reflexivity|]. split; [reflexivity|]. split.
        { constructor; [cbn; lia|]. apply Forall_forall. intros r I. rewrite forallb_forall in Fb. apply Fb in I. apply Z.leb_le in I. exact I. }
        cbn [all_rows flat_map]. rewrite !app_nil_r. reflexivity.
      * right. split; [|reflexivity]. intros [|[s' e'] pre] post Eq T; cbn [app] in Eq.
        -- subst post. apply Exists_cons_tl. apply Exists_exists.
           assert (X : exists r, In r rs /\ (snd r - fst r <=? 1) = false).
           { clear -Fb. induction rs as [|r rs IH]; [discriminate|]. cbn [forallb] in Fb. apply andb_false_iff in Fb.
             destruct Fb as [Fb|Fb]; [exists r; split; [left; reflexivity|exact Fb]|].
             destruct (IH Fb) as (x & I & X). exists x. split; [right; exact I|exact X]. }
           destruct X as (r & I & X). exists r. split; [exact I|]. apply Z.leb_gt in X. lia.
        -- injection Eq as <- <- Eq. rewrite total_rows_cons in T. cbn [fst snd] in T.
           assert (W : Forall (in_bounds (zlen data)) pre) by (rewrite Eq in Hin'; apply Forall_app in Hin'; tauto).
           pose proof (total_rows_nonneg _ (in_bounds_wf _ _ W)). change (zlen (@nil (option B))) with 0 in T. lia.
    + apply Z.eqb_neq in E1. right. split; [|reflexivity]. intros [|[s' e'] pre] post Eq T; cbn [app] in Eq.
      * subst post. apply Exists_cons_hd. cbn. lia.
      * injection Eq as <- <- Eq. rewrite total_rows_cons in T. cbn [fst snd] in T.
        assert (W : Forall (in_bounds (zlen data)) pre) by (rewrite Eq in Hin'; apply Forall_app in Hin'; tauto).
        pose proof (total_rows_nonneg _ (in_bounds_wf _ _ W)). lia.
Qed.

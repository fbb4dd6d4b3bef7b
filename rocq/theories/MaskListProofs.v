(** List facts about masks: boolean indexing, slices, selected rows. *)
From Coq Require Import List ZArith QArith Lia Bool Sorted Permutation.
From Verif Require Import Base BaseLemmas RangesModel RangesSpec RangesProofs SortModel SortProofs
     OrderedSlicesProofs MaskModel MaskSpec.
Import ListNotations.
Open Scope Z_scope.

Lemma In_indices_of i rs : In i (indices_of rs) <-> exists r, In r rs /\ fst r <= i < snd r.
Proof.
  unfold indices_of. rewrite in_flat_map. split; intros (r & H1 & H2); exists r.
  - now rewrite In_zrange in H2.
  - now rewrite In_zrange.
Qed.

(** * compress and masked_assign *)

Lemma compress_map {A} (g : A -> bool) l : compress (map g l) l = filter g l.
Proof. induction l as [|x l IH]; cbn; [reflexivity|]. destruct (g x); now rewrite IH. Qed.

Lemma masked_assign_map {A} (f : A -> bool) m : forall l,
  length m = length l ->
  masked_assign m m (map f (compress m l)) = map (fun bx => fst bx && f (snd bx)) (combine m l).
Proof.
  induction m as [|b m IH]; intros [|x l] H; cbn in H; try discriminate; [reflexivity|].
  cbn. destruct b; cbn; f_equal; apply IH; lia.
Qed.

Lemma map_combine_map {A} (g f : A -> bool) l :
  map (fun bx => fst bx && f (snd bx)) (combine (map g l) l) = map (fun x => g x && f x) l.
Proof. induction l as [|x l IH]; cbn; [reflexivity|]. now f_equal. Qed.

Lemma filter_negb_map {A} (g : A -> bool) l :
  compress (map negb (map g l)) l = filter (fun x => negb (g x)) l.
Proof. rewrite map_map. apply compress_map. Qed.

(** * Boolean masks *)

Definition bget (m : list bool) (i : Z) : bool := nth (Z.to_nat i) m false.

Lemma In_rows_true i m : In i (rows_true m) <-> 0 <= i < zlen m /\ bget m i = true.
Proof. unfold rows_true. rewrite filter_In, In_zrange. reflexivity. Qed.

Lemma bget_out m i : zlen m <= i -> bget m i = false.
Proof. intros H. apply nth_overflow. unfold zlen in H. lia. Qed.

Lemma In_rows_true' i m : In i (rows_true m) <-> 0 <= i /\ bget m i = true.
Proof.
  rewrite In_rows_true. split; [tauto|]. intros [H1 H2]. split; [|assumption].
  split; [assumption|]. destruct (Z_lt_le_dec i (zlen m)); [assumption|].
  now rewrite bget_out in H2 by assumption.
Qed.

Lemma NoDup_rows_true m : NoDup (rows_true m).
Proof. apply NoDup_filter, NoDup_zrange. Qed.

Lemma nth_error_index {A} (l : list A) : forall s j x,
  nth_error l j = Some x ->
  nth_error (combine (zrange s (s + zlen l)) l) j = Some (s + Z.of_nat j, x).
Proof.
  intros s j x H. apply nth_error_combine; [|assumption].
  apply nth_error_zrange.
  assert ((j < length l)%nat) by (apply nth_error_Some; congruence).
  unfold zlen. lia.
Qed.

Lemma combine_index_length {A} (l : list A) : length (combine (zrange 0 (zlen l)) l) = length l.
Proof. rewrite combine_length, zrange_length. unfold zlen. lia. Qed.

Lemma zlen_set_slice {A} lo hi (v : A) l : zlen (set_slice lo hi v l) = zlen l.
Proof. unfold set_slice. rewrite zlen_map. unfold zlen at 1. now rewrite combine_index_length. Qed.

Lemma bget_set_slice lo hi v m i : 0 <= i < zlen m ->
  bget (set_slice lo hi v m) i = if (lo <=? i) && (i <? hi) then v else bget m i.
Proof.
  intros Hi. unfold bget.
  assert (Hlt : (Z.to_nat i < length m)%nat) by (unfold zlen in Hi; lia).
  destruct (nth_error m (Z.to_nat i)) as [b|] eqn:E; [|apply nth_error_None in E; lia].
  pose proof (nth_error_index m 0 (Z.to_nat i) b E) as Hc. cbn [Z.add] in Hc.
  rewrite Z2Nat.id in Hc by lia.
  apply (map_nth_error (fun ix => if (lo <=? fst ix) && (fst ix <? hi) then v else snd ix)) in Hc.
  cbn [fst snd] in Hc. fold (set_slice lo hi v m) in Hc.
  rewrite (nth_error_nth _ _ false Hc), (nth_error_nth _ _ false E). reflexivity.
Qed.

Lemma bget_repeat n i : bget (repeat false n) i = false.
Proof. unfold bget. destruct (nth_in_or_default (Z.to_nat i) (repeat false n) false) as [H|H]; [|assumption].
  now apply repeat_spec in H. Qed.

Lemma zlen_fold_set (rs : list range) (v : bool) : forall m,
  zlen (fold_left (fun m r => set_slice (fst r) (snd r) v m) rs m) = zlen m.
Proof. induction rs as [|r rs IH]; intros m; cbn; [reflexivity|]. now rewrite IH, zlen_set_slice. Qed.

Lemma bget_fold_set (rs : list range) v i : forall m, 0 <= i < zlen m ->
  bget (fold_left (fun m r => set_slice (fst r) (snd r) v m) rs m) i
  = if existsb (fun r => (fst r <=? i) && (i <? snd r)) rs then v else bget m i.
Proof.
  induction rs as [|r rs IH]; intros m H; cbn [fold_left existsb]; [reflexivity|].
  rewrite IH by now rewrite zlen_set_slice.
  rewrite bget_set_slice by assumption.
  destruct (_ && _), (existsb _ rs); reflexivity.
Qed.

Lemma zlen_repeat {A} (x : A) n : 0 <= n -> zlen (repeat x (Z.to_nat n)) = n.
Proof. intros H. unfold zlen. rewrite repeat_length. lia. Qed.

Lemma zlen_bools_of_ranges total rs : 0 <= total -> zlen (bools_of_ranges total rs) = total.
Proof. intros H. unfold bools_of_ranges. now rewrite zlen_fold_set, zlen_repeat. Qed.

Lemma In_rows_bools_of_ranges total rs i : 0 <= total ->
  In i (rows_true (bools_of_ranges total rs)) <-> 0 <= i < total /\ In i (indices_of rs).
Proof.
  intros Ht. rewrite In_rows_true, zlen_bools_of_ranges, In_indices_of by assumption.
  split; intros [Hi H]; split; try assumption.
  - unfold bools_of_ranges in H. rewrite bget_fold_set in H by now rewrite zlen_repeat.
    rewrite bget_repeat in H.
    destruct (existsb _ rs) eqn:E; [|discriminate].
    apply existsb_exists in E as (r & H1 & H2). exists r. split; [assumption|].
    apply andb_true_iff in H2 as [H2 H3]. apply Z.leb_le in H2. apply Z.ltb_lt in H3. lia.
  - unfold bools_of_ranges. rewrite bget_fold_set by now rewrite zlen_repeat.
    destruct H as (r & H1 & H2).
    replace (existsb _ rs) with true; [reflexivity|]. symmetry. apply existsb_exists.
    exists r. split; [assumption|]. apply andb_true_iff. rewrite Z.leb_le, Z.ltb_lt. lia.
Qed.

(** * where *)

Lemma where_true_gen (m : list bool) : forall s,
  map fst (filter (fun ib : Z * bool => snd ib) (combine (zrange s (s + zlen m)) m))
  = filter (fun i => nth (Z.to_nat (i - s)) m false) (zrange s (s + zlen m)).
Proof.
  induction m as [|b m IH]; intros s.
  - rewrite zlen_nil, Z.add_0_r, zrange_nil by lia. reflexivity.
  - rewrite zlen_cons, (zrange_cons s) by (pose proof (zlen_nonneg m); lia).
    cbn [combine filter snd].
    replace (s + (1 + zlen m)) with ((s + 1) + zlen m) by lia.
    assert (E : filter (fun i => nth (Z.to_nat (i - s)) (b :: m) false)
                       (zrange (s + 1) (s + 1 + zlen m))
                = filter (fun i => nth (Z.to_nat (i - (s + 1))) m false)
                         (zrange (s + 1) (s + 1 + zlen m))).
    { apply filter_ext_in. intros i Hi. apply In_zrange in Hi.
      replace (Z.to_nat (i - s)) with (S (Z.to_nat (i - (s + 1)))) by lia. reflexivity. }
    rewrite E, <- IH. replace (s - s) with 0 by lia. cbn [Z.to_nat nth].
    destruct b; reflexivity.
Qed.

Lemma where_true_rows m : where_true m = rows_true m.
Proof.
  unfold where_true, rows_true. pose proof (where_true_gen m 0) as H. cbn [Z.add] in H.
  rewrite H. apply filter_ext. intros i. now rewrite Z.sub_0_r.
Qed.

Lemma StronglySorted_filter {A} (R : A -> A -> Prop) f l :
  StronglySorted R l -> StronglySorted R (filter f l).
Proof.
  induction 1 as [|x l Hs IH Hx]; cbn; [constructor|]. destruct (f x); [|assumption].
  constructor; [assumption|]. apply Forall_forall. intros y Hy. apply filter_In in Hy as [Hy _].
  now apply (proj1 (Forall_forall _ _) Hx).
Qed.

Lemma sorted_zrange a b : StronglySorted Z.lt (zrange a b).
Proof.
  unfold zrange. generalize O at 1. generalize (Z.to_nat (b - a)) as n.
  induction n as [|n IH]; intros s; cbn; constructor; [apply IH|].
  apply Forall_map, Forall_forall. intros k Hk. apply in_seq in Hk. lia.
Qed.

Lemma sorted_rows_true m : StronglySorted Z.lt (rows_true m).
Proof. apply StronglySorted_filter, sorted_zrange. Qed.

Lemma bool_eq_rows m m' : zlen m = zlen m' ->
  (forall i, In i (rows_true m) <-> In i (rows_true m')) -> m = m'.
Proof.
  intros Hl H. apply (nth_ext _ _ false false); [unfold zlen in Hl; lia|].
  intros n Hn. specialize (H (Z.of_nat n)). rewrite !In_rows_true' in H.
  unfold bget in H. rewrite Nat2Z.id in H.
  destruct (nth n m false), (nth n m' false); intuition (auto; lia).
Qed.

Lemma rows_of_map_combine m c f i : zlen m = zlen c -> f false false = false ->
  In i (rows_true (map (fun xy => f (fst xy) (snd xy)) (combine m c)))
  <-> 0 <= i < zlen m /\ f (bget m i) (bget c i) = true.
Proof.
  intros Hl Hf. rewrite In_rows_true, zlen_map.
  replace (zlen (combine m c)) with (zlen m) by (unfold zlen in *; rewrite combine_length; lia).
  unfold bget.
  assert (E : forall n, (n < length m)%nat ->
    nth n (map (fun xy => f (fst xy) (snd xy)) (combine m c)) false = f (nth n m false) (nth n c false)).
  { intros n Hn. unfold zlen in Hl.
    destruct (nth_error m n) eqn:E1; [|apply nth_error_None in E1; lia].
    destruct (nth_error c n) eqn:E2; [|apply nth_error_None in E2; lia].
    pose proof (nth_error_combine m c n b b0 E1 E2) as E3.
    apply (map_nth_error (fun xy => f (fst xy) (snd xy))) in E3.
    rewrite (nth_error_nth _ _ false E3), (nth_error_nth _ _ false E1),
      (nth_error_nth _ _ false E2). reflexivity. }
  split; intros [Hi H]; (split; [assumption|]); rewrite E in * by (unfold zlen in Hi; lia); assumption.
Qed.

(** Cell counts of masked files; unpacking of the Cells group. *)
From Coq Require Import List ZArith QArith Qminmax Lia Bool Sorted Permutation.
From Verif Require Import Base BaseLemmas QTac RangesModel RangesSpec RangesProofs SortModel SortProofs
     OrderedSlicesProofs MaskModel MaskSpec MaskListProofs MaskGeomProofs MaskProofs MaskHistProofs.
Import ListNotations.
Open Scope Z_scope.

Lemma filter_none {A} (f : A -> bool) l : (forall x, In x l -> f x = false) -> filter f l = [].
Proof.
  induction l as [|x l IH]; intros H; cbn; [reflexivity|].
  rewrite H by now left. apply IH. intros y Hy. apply H. now right.
Qed.

Lemma filter_all {A} (f : A -> bool) l : (forall x, In x l -> f x = true) -> filter f l = l.
Proof.
  induction l as [|x l IH]; intros H; cbn; [reflexivity|].
  rewrite H by now left. f_equal. apply IH. intros y Hy. apply H. now right.
Qed.

Lemma filter_len_le {A} (f : A -> bool) l : (length (filter f l) <= length l)%nat.
Proof. induction l as [|x l IH]; cbn; [lia|]. destruct (f x); cbn; lia. Qed.

(** * Counting *)

Lemma count_in_app c l m : count_in c (l ++ m) = count_in c l + count_in c m.
Proof. unfold count_in. rewrite filter_app. apply zlen_app. Qed.

Lemma count_in_zrange c a b :
  a <= b -> 0 <= cell_count c ->
  count_in c (zrange a b)
  = Z.max 0 (Z.min b (cell_offset c + cell_count c) - Z.max a (cell_offset c)).
Proof.
  intros Hab Hc. unfold count_in. set (o := cell_offset c). set (e := o + cell_count c).
  assert (He : o <= e) by lia.
  set (lo := Z.min b (Z.max a o)). set (hi := Z.max lo (Z.min b e)).
  assert (E : filter (fun i => (o <=? i) && (i <? e)) (zrange a b) = zrange lo hi).
  { rewrite (zrange_app a lo b), (zrange_app lo hi b), !filter_app by lia.
    assert (F0 : filter (fun i => (o <=? i) && (i <? e)) (zrange a lo) = []).
    { apply filter_none. intros i Hi. apply In_zrange in Hi. apply andb_false_iff. left.
      apply Z.leb_gt. lia. }
    assert (F2 : filter (fun i => (o <=? i) && (i <? e)) (zrange hi b) = []).
    { apply filter_none. intros i Hi. apply In_zrange in Hi. apply andb_false_iff.
      destruct (Z_lt_le_dec i o); [left; apply Z.leb_gt; lia|right; apply Z.ltb_ge; lia]. }
    assert (F1 : filter (fun i => (o <=? i) && (i <? e)) (zrange lo hi) = zrange lo hi).
    { apply filter_all. intros i Hi. apply In_zrange in Hi. apply andb_true_iff.
      rewrite Z.leb_le, Z.ltb_lt. lia. }
    rewrite F0, F1, F2, app_nil_r. reflexivity. }
  rewrite E, zlen_zrange. lia.
Qed.

(** * Tiles *)

Lemma tile_bounds cells : forall start stop, cells_tile start cells stop -> start <= stop.
Proof.
  induction cells as [|c cells IH]; intros start stop H; cbn in H; [lia|].
  destruct H as (H1 & H2 & H3). apply IH in H3. lia.
Qed.

Lemma tile_nth cells : forall start stop j c,
  cells_tile start cells stop -> nth_error cells j = Some c ->
  start <= cell_offset c /\ 0 <= cell_count c /\ cell_offset c + cell_count c <= stop /\
  match nth_error cells (S j) with
  | Some d => cell_offset d = cell_offset c + cell_count c
  | None => cell_offset c + cell_count c = stop
  end.
Proof.
  induction cells as [|c0 cells IH]; intros start stop j c H Hj; [destruct j; discriminate|].
  cbn in H. destruct H as (H1 & H2 & H3). destruct j as [|j].
  - cbn in Hj. injection Hj as <-. pose proof (tile_bounds _ _ _ H3). repeat split; try lia.
    cbn. destruct cells as [|d cells]; cbn in H3 |- *; lia.
  - cbn [nth_error] in Hj |- *. destruct (IH _ _ _ _ H3 Hj) as (G1 & G2 & G3 & G4).
    repeat split; try lia. exact G4.
Qed.

Lemma tile_sorted cells : forall start stop i j c d,
  cells_tile start cells stop -> nth_error cells i = Some c -> nth_error cells j = Some d ->
  (i <= j)%nat -> cell_offset c <= cell_offset d.
Proof.
  induction cells as [|c0 cells IH]; intros start stop i j c d H Hi Hj Hij; [destruct i; discriminate|].
  cbn in H. destruct H as (H1 & H2 & H3). destruct i as [|i], j as [|j]; try lia.
  - cbn in *. assert (c = d) by congruence. subst. lia.
  - cbn in Hi, Hj. injection Hi as <-. pose proof (tile_nth _ _ _ _ _ H3 Hj). lia.
  - cbn in Hi, Hj. apply (IH _ _ i j c d H3); auto. lia.
Qed.

(** searchsorted on the offsets after the first. *)
Lemma filter_le_sorted (l : list Z) v : StronglySorted Z.le l ->
  forall j x, nth_error l j = Some x -> (x <= v <-> (j < length (filter (fun y => (y <=? v)%Z) l))%nat).
Proof.
  induction 1 as [|y l Hs IH Hy]; intros j x Hj; [destruct j; discriminate|].
  cbn. destruct (y <=? v) eqn:E.
  - apply Z.leb_le in E. destruct j as [|j]; cbn in Hj.
    + injection Hj as <-. cbn. lia.
    + rewrite (IH _ _ Hj). cbn. lia.
  - apply Z.leb_gt in E. rewrite filter_none.
    2:{ intros z Hz. apply (proj1 (Forall_forall _ _) Hy) in Hz. apply Z.leb_gt. lia. }
    cbn. split; [|lia]. intros Hx. exfalso.
    destruct j as [|j]; cbn in Hj; [injection Hj as <-; lia|].
    apply nth_error_In in Hj. apply (proj1 (Forall_forall _ _) Hy) in Hj. lia.
Qed.

Lemma tile_offsets_sorted cells : forall start stop,
  cells_tile start cells stop -> StronglySorted Z.le (map cell_offset cells).
Proof.
  induction cells as [|c cells IH]; intros start stop H; cbn; constructor.
  - cbn in H. destruct H as (_ & _ & H). eapply IH. exact H.
  - cbn in H. destruct H as (H1 & H2 & H3). apply Forall_map, Forall_forall.
    intros d Hd. apply In_nth_error in Hd as [j Hj]. pose proof (tile_nth _ _ _ _ _ H3 Hj). lia.
Qed.

Lemma StronglySorted_tl {A} (R : A -> A -> Prop) l : StronglySorted R l -> StronglySorted R (tl l).
Proof. destruct 1; [constructor|assumption]. Qed.

Lemma nth_error_tl {A} (l : list A) j : nth_error (tl l) j = nth_error l (S j).
Proof. destruct l; [destruct j; reflexivity|reflexivity]. Qed.

Lemma searchsorted_tile cells stop v j c :
  cells_tile 0 cells stop -> nth_error cells (S j) = Some c ->
  (cell_offset c <= v <-> (S j <= searchsorted_right (tl (map cell_offset cells)) v)%nat).
Proof.
  intros H Hj. unfold searchsorted_right.
  rewrite (filter_le_sorted (tl (map cell_offset cells)) v) with (j := j).
  - lia.
  - apply StronglySorted_tl. eapply tile_offsets_sorted. exact H.
  - rewrite nth_error_tl. now apply map_nth_error.
Qed.

Lemma searchsorted_bound cells v :
  cells <> [] -> (searchsorted_right (tl (map cell_offset cells)) v < length cells)%nat.
Proof.
  intros H. destruct cells as [|c cells]; [congruence|]. cbn.
  unfold searchsorted_right. pose proof (filter_len_le (fun y => y <=? v) (map cell_offset cells)) as F.
  rewrite map_length in F. lia.
Qed.

(** The inner loop over cells [s, s+n). *)
Definition add_cell (r : range) (offsets counts : list Z) (acc : res (list Z)) (cell : nat) : res (list Z) :=
  bind acc (fun acc =>
    match nth_error acc cell, nth_error offsets cell, nth_error counts cell with
    | Some x, Some o, Some c =>
        Ok (upd cell (x + (Z.min (snd r) (o + c) - Z.max (fst r) o)) acc)
    | _, _, _ => Err IndexError
    end).

Lemma add_cells_loop r (cells : list cell) n : forall s acc,
  length acc = length cells -> (s + n <= length cells)%nat ->
  exists acc', fold_left (add_cell r (map cell_offset cells) (map cell_count cells))
                         (seq s n) (Ok acc) = Ok acc' /\
    length acc' = length cells /\
    forall j x c, nth_error acc j = Some x -> nth_error cells j = Some c ->
      nth_error acc' j = Some (if (s <=? j)%nat && (j <? s + n)%nat
                               then x + (Z.min (snd r) (cell_offset c + cell_count c)
                                         - Z.max (fst r) (cell_offset c))
                               else x).
Proof.
  induction n as [|n IH]; intros s acc Hl Hs.
  - exists acc. cbn [seq fold_left]. split; [reflexivity|]. split; [assumption|]. intros j x c Hx _.
    replace ((s <=? j)%nat && (j <? s + 0)%nat) with false; [assumption|].
    symmetry. apply andb_false_iff.
    destruct (Nat.leb_spec s j); [right; apply Nat.ltb_ge; lia|left; reflexivity].
  - cbn [seq fold_left]. unfold add_cell at 2. cbn [bind].
    destruct (nth_error acc s) as [xs|] eqn:Ea; [|apply nth_error_None in Ea; lia].
    destruct (nth_error cells s) as [cs|] eqn:Ec; [|apply nth_error_None in Ec; lia].
    rewrite (map_nth_error cell_offset _ _ Ec), (map_nth_error cell_count _ _ Ec).
    set (acc1 := upd s _ acc).
    destruct (IH (S s) acc1) as (acc' & E & L & H); [unfold acc1; now rewrite upd_length|lia|].
    exists acc'. split; [exact E|]. split; [exact L|]. intros j x c Hx Hc.
    destruct (Nat.eq_dec s j) as [<-|Hne].
    + rewrite Ea in Hx. rewrite Ec in Hc. injection Hx as <-. injection Hc as <-.
      rewrite (H s (xs + (Z.min (snd r) (cell_offset cs + cell_count cs) - Z.max (fst r) (cell_offset cs))) cs).
      * replace ((S s <=? s)%nat) with false by (symmetry; apply Nat.leb_gt; lia).
        replace ((s <=? s)%nat) with true by (symmetry; apply Nat.leb_le; lia).
        replace ((s <? s + S n)%nat) with true by (symmetry; apply Nat.ltb_lt; lia). reflexivity.
      * unfold acc1. apply nth_error_upd_eq. apply nth_error_Some. congruence.
      * assumption.
    + rewrite (H j x c); [|unfold acc1; now rewrite nth_error_upd_neq|assumption].
      replace ((S s <=? j)%nat && (j <? S s + n)%nat) with ((s <=? j)%nat && (j <? s + S n)%nat);
        [reflexivity|].
      destruct (Nat.leb_spec s j), (Nat.leb_spec (S s) j), (Nat.ltb_spec j (s + S n)),
        (Nat.ltb_spec j (S s + n)); cbn; lia || reflexivity.
Qed.

Lemma add_range_counts_spec cells n r acc :
  cells_tile 0 cells n -> cells <> [] -> in_bounds n r -> length acc = length cells ->
  exists acc', add_range_counts (map cell_offset cells) (map cell_count cells) acc r = Ok acc' /\
    length acc' = length cells /\
    forall j x c, nth_error acc j = Some x -> nth_error cells j = Some c ->
      nth_error acc' j = Some (x + count_in c (zrange (fst r) (snd r))).
Proof.
  intros Ht Hne (Hr1 & Hr2 & Hr3) Hl. unfold add_range_counts.
  set (s := searchsorted_right (tl (map cell_offset cells)) (fst r)).
  set (e := searchsorted_right (tl (map cell_offset cells)) (snd r)).
  pose proof (searchsorted_bound cells (snd r) Hne) as Hb. fold e in Hb.
  pose proof (searchsorted_bound cells (fst r) Hne) as Hbs. fold s in Hbs.
  destruct (add_cells_loop r cells (S e - s) s acc Hl ltac:(lia)) as (acc' & E & L & H).
  exists acc'. split; [exact E|]. split; [exact L|]. intros j x c Hx Hc.
  rewrite (H j x c Hx Hc). f_equal.
  pose proof (tile_nth _ _ _ _ _ Ht Hc) as (T1 & T2 & T3 & T4).
  rewrite count_in_zrange by lia.
  assert (Hlow : (j <= e)%nat -> cell_offset c <= snd r).
  { intros Hj. destruct j as [|j].
    - destruct cells as [|c0 cells]; [congruence|]. cbn in Hc, Ht. injection Hc as ->. lia.
    - apply (searchsorted_tile cells n _ j c Ht Hc). exact Hj. }
  assert (Hnlow : (e < j)%nat -> snd r < cell_offset c).
  { intros Hj. destruct j as [|j]; [lia|].
    apply Z.nle_gt. intros C. apply (searchsorted_tile cells n _ j c Ht Hc) in C. fold e in C. lia. }
  assert (Hup : (s <= j)%nat -> fst r <= cell_offset c + cell_count c).
  { intros Hj. destruct (nth_error cells (S j)) as [d|] eqn:Ed; [|lia].
    rewrite <- T4. apply Z.lt_le_incl, Z.nle_gt. intros C.
    apply (searchsorted_tile cells n _ j d Ht Ed) in C. fold s in C. lia. }
  assert (Hnup : (j < s)%nat -> cell_offset c + cell_count c <= fst r).
  { intros Hj. destruct (nth_error cells (S j)) as [d|] eqn:Ed.
    - rewrite <- T4. apply (searchsorted_tile cells n _ j d Ht Ed). exact Hj.
    - apply nth_error_None in Ed. lia. }
  destruct (Nat.leb_spec s j) as [A|A]; cbn [andb].
  - specialize (Hup A). destruct (Nat.ltb_spec j (s + (S e - s))) as [B|B].
    + assert ((j <= e)%nat) by lia. specialize (Hlow H0). lia.
    + assert ((e < j)%nat) by lia. specialize (Hnlow H0). lia.
  - specialize (Hnup A). lia.
Qed.

Lemma masked_counts_ranges_spec cells n rs :
  cells_tile 0 cells n -> cells <> [] -> Forall (in_bounds n) rs ->
  masked_counts_ranges (map cell_offset cells) (map cell_count cells) rs
  = Ok (map (fun c => count_in c (indices_of rs)) cells).
Proof.
  intros Ht Hne Hrs. unfold masked_counts_ranges. rewrite map_length.
  assert (G : forall rs acc done, Forall (in_bounds n) rs ->
     acc = map (fun c => count_in c done) cells ->
     fold_left (fun acc r => bind acc (fun acc =>
          add_range_counts (map cell_offset cells) (map cell_count cells) acc r)) rs (Ok acc)
     = Ok (map (fun c => count_in c (done ++ indices_of rs)) cells)).
  { clear rs Hrs. induction rs as [|r rs IH]; intros acc done Hrs Hacc.
    - cbn. rewrite app_nil_r. now f_equal.
    - inversion Hrs as [|? ? Hr Hrs']; subst. cbn [fold_left bind].
      destruct (add_range_counts_spec cells n r (map (fun c => count_in c done) cells) Ht Hne Hr
                  ltac:(now rewrite map_length)) as (acc' & E & L & H).
      rewrite E. rewrite (IH acc' (done ++ zrange (fst r) (snd r)) Hrs').
      + f_equal. apply map_ext. intros c. now rewrite <- app_assoc.
      + apply nth_error_ext'; [rewrite map_length; exact L|]. intros j.
        destruct (nth_error cells j) as [c|] eqn:Ec.
        * rewrite (H j (count_in c done) c (map_nth_error _ _ _ Ec) Ec).
          rewrite (map_nth_error _ _ _ Ec). now rewrite count_in_app.
        * assert (N : (length cells <= j)%nat) by now apply nth_error_None.
          rewrite (proj2 (nth_error_None acc' j)) by lia.
          symmetry. apply nth_error_None. now rewrite map_length. }
  rewrite (G rs _ [] Hrs); [reflexivity|].
  clear. induction cells; cbn; [reflexivity|]. now f_equal.
Qed.

Lemma masked_counts_bools_spec cells bs :
  masked_counts_bools (map cell_offset cells) (map cell_count cells) bs
  = map (fun c => count_in c (rows_true bs)) cells.
Proof.
  unfold masked_counts_bools. rewrite combine_map_map, map_map. apply map_ext. intros c.
  cbn [fst snd]. unfold count_in. rewrite <- where_true_rows. unfold where_true.
  generalize (combine (zrange 0 (zlen bs)) bs). intros l.
  induction l as [|[i b] l IH]; [reflexivity|]. cbn [filter fst snd map].
  destruct b; cbn [filter map fst snd]; rewrite ?andb_true_r, ?andb_false_r; [|exact IH].
  destruct (_ && _); [rewrite !zlen_cons, IH; reflexivity|exact IH].
Qed.

Lemma masked_counts_spec cells n m :
  cells_tile 0 cells n -> cells <> [] -> mask_for n m ->
  masked_counts_offsets cells m
  = Ok (map (fun c => count_in c (rows_of m)) cells,
        running_offsets 0 (map (fun c => count_in c (rows_of m)) cells)).
Proof.
  intros Ht Hne Hm. unfold masked_counts_offsets.
  assert (O : forall l, l <> [] -> offsets_from_counts l = running_offsets 0 l)
    by (intros [|? ?]; [congruence|reflexivity]).
  assert (N : forall f : cell -> Z, map f cells <> []) by (intros f; destruct cells; [congruence|discriminate]).
  destruct m as [rs|bs]; cbn [rows_of mask_for] in *.
  - rewrite (masked_counts_ranges_spec cells n rs Ht Hne Hm). cbn [bind]. now rewrite O.
  - rewrite masked_counts_bools_spec. cbn [bind]. now rewrite O.
Qed.

Lemma running_offsets_nth l : forall acc j, (j < length l)%nat ->
  nth_error (running_offsets acc l) j = Some (acc + sumZ (firstn j l)).
Proof.
  induction l as [|x l IH]; intros acc j Hj; cbn in Hj; [lia|].
  destruct j as [|j]; cbn [running_offsets nth_error firstn sumZ fold_right]; [f_equal; lia|].
  rewrite IH by lia. unfold sumZ. cbn [fold_right]. f_equal. lia.
Qed.

Lemma running_offsets_length l : forall acc, length (running_offsets acc l) = length l.
Proof. induction l; intros acc; cbn; [reflexivity|]. now rewrite IHl. Qed.

(** Every row of the file is in exactly one tile. *)
Lemma tile_count_one cells : forall start stop i,
  cells_tile start cells stop -> start <= i < stop ->
  sumZ (map (fun c => count_in c [i]) cells) = 1.
Proof.
  induction cells as [|c cells IH]; intros start stop i H Hi; cbn in H; [lia|].
  destruct H as (H1 & H2 & H3). cbn [map]. rewrite sumZ_cons.
  unfold count_in at 1. cbn [filter].
  destruct (Z_lt_le_dec i (start + cell_count c)) as [A|A].
  - replace ((cell_offset c <=? i) && (i <? cell_offset c + cell_count c)) with true
      by (symmetry; apply andb_true_iff; rewrite Z.leb_le, Z.ltb_lt; lia).
    assert (E : sumZ (map (fun c => count_in c [i]) cells) = 0).
    { clear IH Hi. revert start H1 H3 A. generalize c. clear H2.
      assert (G : forall s, cells_tile s cells stop -> i < s ->
                  sumZ (map (fun c => count_in c [i]) cells) = 0).
      { induction cells as [|d cells IH]; intros s Hs Hlt; [reflexivity|].
        cbn in Hs. destruct Hs as (K1 & K2 & K3). cbn [map]. rewrite sumZ_cons.
        rewrite (IH _ K3) by lia. unfold count_in. cbn [filter].
        replace (cell_offset d <=? i) with false by (symmetry; apply Z.leb_gt; lia). reflexivity. }
      intros c0 s _ H3 A. apply (G _ H3 A). }
    rewrite E. reflexivity.
  - replace (i <? cell_offset c + cell_count c) with false by (symmetry; apply Z.ltb_ge; lia).
    rewrite andb_false_r. rewrite (IH _ _ _ H3) by lia. reflexivity.
Qed.

Lemma tile_count_total cells n rows :
  cells_tile 0 cells n -> Forall (fun i => 0 <= i < n) rows ->
  sumZ (map (fun c => count_in c rows) cells) = zlen rows.
Proof.
  intros Ht. induction 1 as [|i rows Hi _ IH].
  - clear Ht. induction cells; [reflexivity|]. cbn [map]. rewrite sumZ_cons, IHcells. reflexivity.
  - rewrite zlen_cons, <- IH, <- (tile_count_one cells 0 n i Ht Hi).
    clear. induction cells as [|c cells IHc]; [reflexivity|]. cbn [map]. rewrite !sumZ_cons.
    rewrite IHc. change (i :: rows) with ([i] ++ rows). rewrite count_in_app. lia.
Qed.

Lemma mask_for_rows n m : mask_for n m -> Forall (fun i => 0 <= i < n) (rows_of m).
Proof.
  destruct m as [rs|bs]; cbn; intros H.
  - apply Forall_forall. intros i Hi. now apply (In_indices_in_bounds _ _ _ H).
  - rewrite <- H. apply rows_true_bounds.
Qed.

(** * Unpacking *)

Lemma take_order_perm {A} (l : list A) o :
  Permutation o (seq 0 (length l)) -> Permutation (take_order l o) l.
Proof.
  intros Hp.
  assert (Hv : Forall (fun i => (i < length l)%nat) o).
  { apply Forall_forall. intros i Hi. apply (Permutation_in _ Hp) in Hi. apply in_seq in Hi. lia. }
  assert (G : Permutation (take_order l o) (take_order l (seq 0 (length l)))).
  { unfold take_order. apply Permutation_flat_map. exact Hp. }
  rewrite G.
  assert (E : take_order l (seq 0 (length l)) = l).
  { apply take_order_unique. apply Forall2_nth_intro; [now rewrite seq_length|].
    intros i a b Ha Hb. assert ((i < length l)%nat) by (apply nth_error_Some; congruence).
    rewrite nth_error_seq in Ha by assumption. injection Ha as <-. exact Hb. }
  now rewrite E.
Qed.

Lemma zip3_length {A B C D} (f : A -> B -> C -> D) l m n :
  length m = length l -> length n = length l -> length (zip3 f l m n) = length l.
Proof. intros H1 H2. unfold zip3. rewrite map_length, !combine_length. lia. Qed.

Lemma zip3_nth {A B C D} (f : A -> B -> C -> D) l m n j a b c :
  nth_error l j = Some a -> nth_error m j = Some b -> nth_error n j = Some c ->
  nth_error (zip3 f l m n) j = Some (f a b c).
Proof.
  intros H1 H2 H3. unfold zip3.
  rewrite (map_nth_error _ _ _ (nth_error_combine _ _ _ _ _ H1 (nth_error_combine _ _ _ _ _ H2 H3))).
  reflexivity.
Qed.

Lemma zip3_nth_inv {A B C D} (f : A -> B -> C -> D) l m n j d :
  nth_error (zip3 f l m n) j = Some d ->
  exists a b c, nth_error l j = Some a /\ nth_error m j = Some b /\ nth_error n j = Some c /\ d = f a b c.
Proof.
  unfold zip3. intros H. rewrite nth_error_map in H.
  destruct (nth_error (combine l (combine m n)) j) as [[a [b c]]|] eqn:E; [|discriminate].
  apply nth_error_combine_inv in E as [E1 E2]. cbn in E2. apply nth_error_combine_inv in E2 as [E2 E3].
  cbn in *. injection H as <-. exists a, b, c. auto.
Qed.

Definition rk_lengths (rc : raw_cells) (rk : raw_key) : Prop :=
  length (rk_offsets rk) = length (rc_centres rc) /\
  length (rk_counts rk) = length (rc_centres rc) /\
  match rk_extent rk with
  | Some (mn, mx) => length mn = length (rc_centres rc) /\ length mx = length (rc_centres rc)
  | None => True
  end.

Lemma cell_extents_length rc rk : rk_lengths rc rk -> length (cell_extents rc rk) = length (rc_centres rc).
Proof.
  intros (_ & _ & H). unfold cell_extents. destruct (rk_extent rk) as [[mn mx]|].
  - destruct H. now apply zip3_length.
  - apply map_length.
Qed.

Lemma raw_cells_length rc rk : rk_lengths rc rk -> length (raw_cells_of_key rc rk) = length (rc_centres rc).
Proof.
  intros H. unfold raw_cells_of_key. rewrite zip3_length.
  - apply H.
  - destruct H as (H1 & H2 & _). congruence.
  - rewrite cell_extents_length by assumption. destruct H as (H1 & _). congruence.
Qed.

Lemma wf_raw_lengths rc rk : wf_raw rc -> In rk (rc_keys rc) -> rk_lengths rc rk.
Proof.
  intros (_ & _ & _ & _ & H) Hin. apply (proj1 (Forall_forall _ _) H) in Hin.
  unfold rk_lengths. tauto.
Qed.

Lemma unpack_key rc k rk :
  wf_raw rc -> nth_error (rc_keys rc) k = Some rk ->
  exists mk, nth_error (mm_keys (unpack_cell_metadata rc)) k = Some mk /\
             Permutation (key_cells mk) (raw_cells_of_key rc rk) /\ key_total mk = rk_total rk.
Proof.
  intros Hw Hk. unfold unpack_cell_metadata. cbn [mm_keys].
  rewrite (map_nth_error _ _ _ Hk). eexists. split; [reflexivity|]. cbn. split; [|reflexivity].
  destruct (rc_keys rc) as [|rk0 rks] eqn:E; [destruct k; discriminate|].
  apply take_order_perm. rewrite raw_cells_length.
  - destruct (stable_argsort_is_argsort (rk_offsets rk0)) as [P _].
    assert (L : rk_lengths rc rk0) by (apply wf_raw_lengths; [assumption|rewrite E; now left]).
    destruct L as (L & _). now rewrite L in P.
  - apply wf_raw_lengths; [assumption|]. rewrite E. eapply nth_error_In. exact Hk.
Qed.

Lemma unpack_key_inv rc k mk :
  wf_raw rc -> nth_error (mm_keys (unpack_cell_metadata rc)) k = Some mk ->
  exists rk, nth_error (rc_keys rc) k = Some rk /\
             Permutation (key_cells mk) (raw_cells_of_key rc rk) /\ key_total mk = rk_total rk.
Proof.
  intros Hw Hk. assert (H : (k < length (rc_keys rc))%nat).
  { assert (k < length (mm_keys (unpack_cell_metadata rc)))%nat by (apply nth_error_Some; congruence).
    unfold unpack_cell_metadata in H. cbn in H. now rewrite map_length in H. }
  destruct (nth_error (rc_keys rc) k) as [rk|] eqn:E; [|apply nth_error_None in E; lia].
  destruct (unpack_key rc k rk Hw E) as (mk' & E' & H1 & H2). rewrite Hk in E'. injection E' as <-.
  exists rk. auto.
Qed.

Lemma unpack_wf rc : wf_raw rc -> wf_meta (unpack_cell_metadata rc).
Proof.
  intros Hw. pose proof Hw as (Hb & _ & _ & Hh & Hk). split; [exact Hb|]. split.
  - apply Forall_forall. intros mk Hin. apply In_nth_error in Hin as [k Hin].
    destruct (unpack_key_inv rc k mk Hw Hin) as (rk & E & P & T).
    assert (Hrk : In rk (rc_keys rc)) by (eapply nth_error_In; exact E).
    apply (proj1 (Forall_forall _ _) Hk) in Hrk as (L1 & L2 & L3 & L4 & L5).
    split; [lia|]. apply (Forall_perm _ (raw_cells_of_key rc rk)); [now symmetry|].
    apply Forall_forall. intros c Hc. apply In_nth_error in Hc as [j Hc].
    unfold raw_cells_of_key in Hc. apply zip3_nth_inv in Hc as (o & n & e & E1 & E2 & E3 & ->). cbn.
    pose proof (nth_error_combine _ _ _ _ _ E1 E2) as Ec. apply nth_error_In in Ec.
    apply (proj1 (Forall_forall _ _) L5) in Ec. cbn in Ec. lia.
  - intros H. unfold unpack_cell_metadata. cbn. rewrite map_length. now apply Hh.
Qed.

Lemma where_lt_min a b : (where_lt a b == Qmin a b)%Q.
Proof.
  unfold where_lt. destruct (qltb a b) eqn:E.
  - apply qltb_iff in E. symmetry. apply Q.min_l. apply Qlt_le_weak, E.
  - apply qltb_false in E. symmetry. now apply Q.min_r.
Qed.

Lemma where_gt_max a b : (where_gt a b == Qmax a b)%Q.
Proof.
  unfold where_gt. destruct (qltb b a) eqn:E.
  - apply qltb_iff in E. symmetry. apply Q.max_l. apply Qlt_le_weak, E.
  - apply qltb_false in E. symmetry. now apply Q.max_r.
Qed.

Lemma raw_cell_nth rc rk j o n :
  rk_lengths rc rk -> nth_error (rk_offsets rk) j = Some o -> nth_error (rk_counts rk) j = Some n ->
  exists c, nth_error (raw_cells_of_key rc rk) j = Some c /\ cell_offset c = o /\ cell_count c = n /\
            forall a, file_extent rc rk j a (cell_min c a) (cell_max c a).
Proof.
  intros L Ho Hn.
  assert (Hj : (j < length (rc_centres rc))%nat).
  { destruct L as (L & _). rewrite <- L. apply nth_error_Some. congruence. }
  destruct (nth_error (cell_extents rc rk) j) as [e|] eqn:Ee.
  2:{ apply nth_error_None in Ee. rewrite cell_extents_length in Ee by assumption. lia. }
  eexists. split; [unfold raw_cells_of_key; apply zip3_nth; [exact Ho|exact Hn|exact Ee]|].
  cbn. split; [reflexivity|]. split; [reflexivity|]. intros a.
  unfold file_extent. unfold cell_extents in Ee. destruct (rk_extent rk) as [[mn mx]|].
  - apply zip3_nth_inv in Ee as (c & n' & x & E1 & E2 & E3 & ->). exists c. split; [assumption|].
    exists n', x. split; [assumption|]. split; [assumption|]. cbn [fst snd].
    rewrite where_lt_min, where_gt_max. split.
    + apply Q.min_compat; [|reflexivity]. field.
    + apply Q.max_compat; [|reflexivity]. field.
  - destruct (nth_error (rc_centres rc) j) as [c|] eqn:Ec; [|apply nth_error_None in Ec; lia].
    erewrite map_nth_error in Ee by exact Ec.
    injection Ee as <-. exists c. split; [reflexivity|]. cbn. split; field.
Qed.

Lemma raw_cell_inv rc rk c :
  rk_lengths rc rk -> In c (raw_cells_of_key rc rk) ->
  exists j, nth_error (rk_offsets rk) j = Some (cell_offset c) /\
            nth_error (rk_counts rk) j = Some (cell_count c) /\
            forall a, file_extent rc rk j a (cell_min c a) (cell_max c a).
Proof.
  intros L Hc. apply In_nth_error in Hc as [j Hc]. exists j. pose proof Hc as Hc'.
  unfold raw_cells_of_key in Hc. apply zip3_nth_inv in Hc as (o & n & e & E1 & E2 & E3 & ->).
  destruct (raw_cell_nth rc rk j o n L E1 E2) as (c & Hc & H1 & H2 & H3).
  rewrite Hc in Hc'. injection Hc' as ->. cbn in *. auto.
Qed.

(** The first key is sorted by file offset. *)
Lemma take_order_sorted (keys : list Z) (l : list cell) :
  map cell_offset l = keys ->
  StronglySorted Z.le (map cell_offset (take_order l (stable_argsort keys))).
Proof.
  intros Hk. destruct (stable_argsort_is_argsort keys) as [P S].
  assert (Hv : Forall (fun i => (i < length l)%nat) (stable_argsort keys)).
  { apply Forall_forall. intros i Hi. apply (Permutation_in _ P) in Hi. apply in_seq in Hi.
    rewrite <- Hk, map_length in Hi. lia. }
  pose proof (take_order_valid l _ Hv) as F.
  replace (map cell_offset (take_order l (stable_argsort keys)))
    with (map (fun i => nth i keys 0) (stable_argsort keys)); [exact S|].
  revert F. generalize (take_order l (stable_argsort keys)). generalize (stable_argsort keys).
  induction 1 as [|i x o out Hi _ IH]; [reflexivity|]. cbn. f_equal; [|exact IH].
  rewrite <- Hk. apply nth_error_nth. now apply map_nth_error.
Qed.

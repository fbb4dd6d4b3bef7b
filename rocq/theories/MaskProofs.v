(** The mask object: invariant of all reachable states and the effect of each call. *)
From Coq Require Import List ZArith QArith Lia Bool Sorted Permutation.
From Verif Require Import Base BaseLemmas RangesModel RangesSpec RangesProofs SortModel SortProofs
     OrderedSlicesProofs MaskModel MaskSpec MaskListProofs MaskGeomProofs.
Import ListNotations.
Open Scope Z_scope.

(** * Lists of per-key data *)

Lemma Forall2_nth_r {A B} (R : A -> B -> Prop) l m i b :
  Forall2 R l m -> nth_error m i = Some b -> exists a, nth_error l i = Some a /\ R a b.
Proof.
  intros H. revert i. induction H; intros [|i] Hi; cbn in *; try discriminate.
  - injection Hi as ->. eauto.
  - auto.
Qed.

Lemma Forall2_len {A B} (R : A -> B -> Prop) l m : Forall2 R l m -> length l = length m.
Proof. induction 1; cbn; congruence. Qed.

Lemma Forall2_none {A B} (R : A -> B -> Prop) l m i :
  Forall2 R l m -> nth_error l i = None <-> nth_error m i = None.
Proof. intros H. rewrite !nth_error_None. now rewrite (Forall2_len _ _ _ H). Qed.

Lemma combine_map_r {A B} (f : A -> B) l : combine l (map f l) = map (fun x => (x, f x)) l.
Proof. induction l; cbn; [reflexivity|]. now f_equal. Qed.

Lemma combine_map_map {A B C} (f : A -> B) (g : A -> C) l :
  combine (map f l) (map g l) = map (fun x => (f x, g x)) l.
Proof. induction l; cbn; [reflexivity|]. now f_equal. Qed.

Lemma Forall2_map_r {A B} (R : A -> B -> Prop) f l :
  Forall (fun x => R x (f x)) l -> Forall2 R l (map f l).
Proof. induction 1; cbn; constructor; auto. Qed.

Lemma Forall2_map_combine {A B C} (R : A -> B -> Prop) (R' : A -> C -> Prop) f l m :
  Forall2 R l m -> (forall a b, In a l -> R a b -> R' a (f (a, b))) ->
  Forall2 R' l (map f (combine l m)).
Proof.
  intros H Hf. induction H; cbn; constructor.
  - apply Hf; [now left|assumption].
  - apply IHForall2. intros; apply Hf; [now right|assumption].
Qed.

Lemma nth_error_combine_inv {A B} (l : list A) : forall (m : list B) i x,
  nth_error (combine l m) i = Some x ->
  nth_error l i = Some (fst x) /\ nth_error m i = Some (snd x).
Proof.
  induction l as [|a l IH]; intros [|b m] [|i] x H; cbn in *; try discriminate.
  - now injection H as <-.
  - now apply IH.
Qed.

(** * Invariant *)

Definition mask_of_ranges_ok (mk : mask_key) (rs : list range * Z) : Prop :=
  Forall (in_bounds (key_total mk)) (fst rs) /\ snd rs = zlen (indices_of (fst rs)).

Definition mask_of_bools_ok (mk : mask_key) (bs : list bool * Z) : Prop :=
  zlen (fst bs) = key_total mk /\ snd bs = key_total mk.

Definition good_masks (mm : mask_meta) (m : masks) : Prop :=
  match m with
  | InRanges l => Forall2 mask_of_ranges_ok (mm_keys mm) l
  | InBools l => Forall2 mask_of_bools_ok (mm_keys mm) l
  end.

Definition cell_masks (mm : mask_meta) (g : cell -> bool) : list (list bool) :=
  map (fun k => map g (key_cells k)) (mm_keys mm).

Definition good (mm : mask_meta) (st : mask_state) : Prop :=
  (exists g, ms_cell_mask st = cell_masks mm g) /\ good_masks mm (ms_masks st).

(** * Cell masks to particle masks *)

Definition cell_range (c : cell) : range := (cell_offset c, cell_count c + cell_offset c).

Lemma range_mask_of_cells_spec cells g :
  range_mask_of_cells cells (map g cells)
  = (map cell_range (filter g cells), sumZ (map cell_count (filter g cells))).
Proof. unfold range_mask_of_cells. now rewrite compress_map. Qed.

Lemma In_cell_ranges i cells :
  In i (indices_of (map cell_range cells)) <-> exists c, In c cells /\ stored_in c i.
Proof.
  rewrite In_indices_of. split.
  - intros (r & H & Hi). apply in_map_iff in H as (c & <- & Hc). exists c. split; [assumption|].
    unfold stored_in, cell_range in *. cbn in Hi. lia.
  - intros (c & Hc & Hi). exists (cell_range c). split; [now apply in_map|].
    unfold stored_in, cell_range in *. cbn. lia.
Qed.

Lemma sum_counts_rows cells :
  Forall (fun c => 0 <= cell_count c) cells ->
  sumZ (map cell_count cells) = zlen (indices_of (map cell_range cells)).
Proof.
  intros H. rewrite zlen_indices_of.
  - unfold total_rows. rewrite map_map. f_equal. apply map_ext. intros c. cbn. lia.
  - apply Forall_map. eapply Forall_impl; [|exact H]. cbn. intros; lia.
Qed.

Lemma cell_ranges_in_bounds mk cells :
  cells_in_file mk -> incl cells (key_cells mk) ->
  Forall (in_bounds (key_total mk)) (map cell_range cells).
Proof.
  intros [_ H] Hi. apply Forall_map, Forall_forall. intros c Hc.
  apply Hi in Hc. apply (proj1 (Forall_forall _ _) H) in Hc.
  unfold in_bounds, cell_range. cbn. lia.
Qed.

Lemma counts_nonneg mk cells :
  cells_in_file mk -> incl cells (key_cells mk) -> Forall (fun c => 0 <= cell_count c) cells.
Proof.
  intros [_ H] Hi. apply Forall_forall. intros c Hc.
  apply Hi in Hc. apply (proj1 (Forall_forall _ _) H) in Hc. lia.
Qed.

Lemma filter_incl {A} (f : A -> bool) l : incl (filter f l) l.
Proof. intros x Hx. now apply filter_In in Hx. Qed.

Lemma range_mask_ok mk g :
  cells_in_file mk -> mask_of_ranges_ok mk (range_mask_of_cells (key_cells mk) (map g (key_cells mk))).
Proof.
  intros H. rewrite range_mask_of_cells_spec. split; cbn [fst snd].
  - apply cell_ranges_in_bounds; [assumption|apply filter_incl].
  - apply sum_counts_rows. apply (counts_nonneg mk); [assumption|apply filter_incl].
Qed.

(** The boolean mask after clearing cells. *)
Lemma bool_mask_of_cells_fold cells g m :
  bool_mask_of_cells cells (map g cells) m
  = fold_left (fun m r => set_slice (fst r) (snd r) false m)
              (map cell_range (filter (fun c => negb (g c)) cells)) m.
Proof.
  unfold bool_mask_of_cells. rewrite filter_negb_map.
  generalize (filter (fun c => negb (g c)) cells). intros l. revert m.
  induction l as [|c l IH]; intros m; cbn; [reflexivity|]. apply IH.
Qed.

Lemma zlen_bool_mask_of_cells cells g m :
  zlen (bool_mask_of_cells cells (map g cells) m) = zlen m.
Proof. rewrite bool_mask_of_cells_fold. apply zlen_fold_set. Qed.

Lemma In_bool_mask_of_cells cells g m i :
  In i (rows_true (bool_mask_of_cells cells (map g cells) m)) <->
  In i (rows_true m) /\ ~ (exists c, In c cells /\ g c = false /\ stored_in c i).
Proof.
  rewrite !In_rows_true, zlen_bool_mask_of_cells, bool_mask_of_cells_fold.
  split.
  - intros [Hi H]. rewrite bget_fold_set in H by assumption.
    destruct (existsb _ _) eqn:E; [discriminate|]. split; [tauto|].
    intros (c & H1 & H2 & H3). apply not_true_iff_false in E. apply E, existsb_exists.
    exists (cell_range c). split.
    + apply in_map, filter_In. now rewrite H2.
    + unfold stored_in, cell_range in *. cbn. apply andb_true_iff. rewrite Z.leb_le, Z.ltb_lt. lia.
  - intros [[Hi H] Hn]. split; [assumption|]. rewrite bget_fold_set by assumption.
    destruct (existsb _ _) eqn:E; [|assumption]. exfalso. apply Hn.
    apply existsb_exists in E as (r & H1 & H2). apply in_map_iff in H1 as (c & <- & Hc).
    apply filter_In in Hc as [Hc Hg]. apply negb_true_iff in Hg. exists c.
    split; [assumption|]. split; [assumption|].
    apply andb_true_iff in H2. rewrite Z.leb_le, Z.ltb_lt in H2. unfold stored_in. cbn in H2. lia.
Qed.

(** * update_range_masks *)

Lemma update_ranges mm g l :
  update_range_masks mm (cell_masks mm g) (InRanges l)
  = InRanges (map (fun k => range_mask_of_cells (key_cells k) (map g (key_cells k))) (mm_keys mm)).
Proof. unfold update_range_masks, cell_masks. now rewrite combine_map_r, map_map. Qed.

Lemma update_bools mm g l :
  update_range_masks mm (cell_masks mm g) (InBools l)
  = InBools (map (fun kb => (bool_mask_of_cells (key_cells (fst kb)) (map g (key_cells (fst kb)))
                                                (fst (snd kb)), snd (snd kb)))
                 (combine (mm_keys mm) l)).
Proof.
  unfold update_range_masks, cell_masks. f_equal. rewrite combine_map_r.
  generalize (mm_keys mm) as ks. revert l. induction l as [|b l IH]; intros [|k ks]; cbn; try reflexivity.
  f_equal. apply IH.
Qed.

Lemma good_update mm g m :
  Forall cells_in_file (mm_keys mm) -> good_masks mm m ->
  good_masks mm (update_range_masks mm (cell_masks mm g) m).
Proof.
  intros Hf Hm. destruct m as [l|l].
  - rewrite update_ranges. cbn. apply Forall2_map_r. eapply Forall_impl; [|exact Hf].
    intros mk Hk. now apply range_mask_ok.
  - rewrite update_bools. cbn in *. eapply Forall2_map_combine; [exact Hm|].
    intros mk bs _ [H1 H2]. split; cbn [fst snd]; [|assumption].
    now rewrite zlen_bool_mask_of_cells.
Qed.

Lemma rows_update_ranges mm g l k :
  masked_rows (update_range_masks mm (cell_masks mm g) (InRanges l)) k
  = match nth_error (mm_keys mm) k with
    | Some mk => indices_of (map cell_range (filter g (key_cells mk)))
    | None => []
    end.
Proof.
  rewrite update_ranges. cbn [masked_rows]. rewrite nth_error_map.
  destruct (nth_error (mm_keys mm) k); cbn [option_map]; [|reflexivity]. now rewrite range_mask_of_cells_spec.
Qed.

Lemma selected_update_ranges mm g l k i :
  In i (masked_rows (update_range_masks mm (cell_masks mm g) (InRanges l)) k) <->
  exists mk c, nth_error (mm_keys mm) k = Some mk /\ In c (key_cells mk) /\ g c = true
               /\ stored_in c i.
Proof.
  rewrite rows_update_ranges. destruct (nth_error (mm_keys mm) k) as [mk|].
  - rewrite In_cell_ranges. split.
    + intros (c & Hc & Hi). apply filter_In in Hc as [Hc Hg]. now exists mk, c.
    + intros (mk' & c & [= <-] & Hc & Hg & Hi). exists c. split; [|assumption].
      apply filter_In. tauto.
  - split; [easy|]. intros (? & ? & H & _). discriminate.
Qed.

Lemma selected_update_bools mm g l k i :
  good_masks mm (InBools l) ->
  In i (masked_rows (update_range_masks mm (cell_masks mm g) (InBools l)) k) <->
  In i (masked_rows (InBools l) k) /\
  ~ (exists mk c, nth_error (mm_keys mm) k = Some mk /\ In c (key_cells mk) /\ g c = false
                  /\ stored_in c i).
Proof.
  intros Hm. rewrite update_bools. cbn in *. rewrite nth_error_map.
  destruct (nth_error (combine (mm_keys mm) l) k) as [[mk bs]|] eqn:E; cbn.
  - apply nth_error_combine_inv in E as [E1 E2]. cbn in *. rewrite E2.
    rewrite In_bool_mask_of_cells. split; intros [H1 H2]; split; try assumption.
    + intros (mk' & c & H3 & H4). rewrite E1 in H3. injection H3 as <-. eauto.
    + intros (c & H). apply H2. exists mk, c. tauto.
  - assert (nth_error l k = None) as ->; [|cbn; tauto].
    destruct (nth_error l k) as [b|] eqn:E1; [|reflexivity].
    destruct (Forall2_nth_r _ _ _ _ _ Hm E1) as (a & E2 & _).
    now rewrite (nth_error_combine _ _ _ _ _ E2 E1) in E.
Qed.

Lemma good_new mm : Forall cells_in_file (mm_keys mm) -> good mm (new_mask mm).
Proof.
  intros H. split.
  - exists (fun _ => true). reflexivity.
  - unfold new_mask. cbn [ms_masks]. change (full_cell_mask mm) with (cell_masks mm (fun _ => true)).
    rewrite update_ranges. cbn. apply Forall2_map_r. eapply Forall_impl; [|exact H].
    intros mk Hk. now apply range_mask_ok.
Qed.

(** * Conversions *)

Lemma good_to_bool mm m :
  Forall cells_in_file (mm_keys mm) -> good_masks mm m -> good_masks mm (convert_masks_to_bool mm m).
Proof.
  intros Hf Hm. destruct m as [l|l]; cbn in *; [|assumption].
  eapply Forall2_map_combine; [exact Hm|]. intros mk rs Hk _. cbn.
  apply (proj1 (Forall_forall _ _) Hf) in Hk as [Hk _].
  split; cbn; [now apply zlen_bools_of_ranges|reflexivity].
Qed.

Lemma In_indices_in_bounds n rs i :
  Forall (in_bounds n) rs -> In i (indices_of rs) -> 0 <= i < n.
Proof.
  intros H Hi. apply In_indices_of in Hi as (r & Hr & Hi).
  apply (proj1 (Forall_forall _ _) H) in Hr. unfold in_bounds in Hr. lia.
Qed.

Lemma rows_to_bool mm m k i :
  Forall cells_in_file (mm_keys mm) -> good_masks mm m ->
  In i (masked_rows (convert_masks_to_bool mm m) k) <-> In i (masked_rows m k).
Proof.
  intros Hf Hm. destruct m as [l|l]; cbn in *; [|reflexivity].
  rewrite nth_error_map.
  destruct (nth_error l k) as [rs|] eqn:E.
  - destruct (Forall2_nth_r _ _ _ _ _ Hm E) as (mk & E2 & [H1 _]).
    rewrite (nth_error_combine _ _ _ _ _ E2 E). cbn.
    assert (0 <= key_total mk).
    { apply nth_error_In in E2. now apply (proj1 (Forall_forall _ _) Hf) in E2 as [? _]. }
    rewrite In_rows_bools_of_ranges by assumption. split; [tauto|]. intros Hi.
    split; [|assumption]. now apply (In_indices_in_bounds _ _ _ H1).
  - destruct (nth_error (combine (mm_keys mm) l) k) eqn:E2; cbn; [|reflexivity].
    apply nth_error_combine_inv in E2. now rewrite E in E2.
Qed.

Lemma rows_true_bounds m : Forall (fun i => 0 <= i < zlen m) (rows_true m).
Proof. apply Forall_forall. intros i Hi. now apply In_rows_true in Hi. Qed.

Lemma ranges_from_array_bounds n l :
  0 <= n -> Forall (fun i => 0 <= i < n) l -> Forall (in_bounds n) (ranges_from_array l).
Proof.
  intros Hn H. destruct l as [|x l].
  - cbn. repeat constructor; unfold in_bounds; cbn; lia.
  - apply Forall_forall. intros r Hr.
    pose proof (ranges_from_array_nonempty (x :: l) ltac:(discriminate)) as Hne.
    apply (proj1 (Forall_forall _ _) Hne) in Hr as Hlt.
    assert (Hs : In (fst r) (x :: l)).
    { rewrite <- (ranges_from_array_indices (x :: l)). apply In_indices_of. exists r. split; [assumption|lia]. }
    assert (He : In (snd r - 1) (x :: l)).
    { rewrite <- (ranges_from_array_indices (x :: l)). apply In_indices_of. exists r. split; [assumption|lia]. }
    apply (proj1 (Forall_forall _ _) H) in Hs, He. unfold in_bounds. lia.
Qed.

Lemma good_to_ranges mm m :
  good_masks mm m -> good_masks mm (convert_masks_to_ranges m).
Proof.
  intros Hm. destruct m as [l|l]; cbn in *; [assumption|].
  induction Hm as [|mk bs ks l [H1 H2] _ IH]; cbn; constructor; [|exact IH].
  rewrite where_true_rows. split; cbn.
  - apply ranges_from_array_bounds.
    + rewrite <- H1. apply zlen_nonneg.
    + rewrite <- H1. apply rows_true_bounds.
  - now rewrite ranges_from_array_indices.
Qed.

Lemma rows_to_ranges m k :
  masked_rows (convert_masks_to_ranges m) k = masked_rows m k.
Proof.
  destruct m as [l|l]; cbn; [reflexivity|]. rewrite nth_error_map.
  destruct (nth_error l k); cbn; [|reflexivity].
  now rewrite ranges_from_array_indices, where_true_rows.
Qed.

(** * Property constraints *)

Lemma In_property_mask cur vals lower upper i :
  zlen vals = zlen cur ->
  In i (rows_true (masked_assign cur cur
                     (map (fun v => qltb lower v && Qle_bool v upper) (compress cur vals)))) <->
  In i (rows_true cur) /\
  exists v, nth_error vals (Z.to_nat i) = Some v /\ (lower < v)%Q /\ (v <= upper)%Q.
Proof.
  intros Hl. assert (Hl' : length cur = length vals) by (unfold zlen in Hl; lia).
  rewrite masked_assign_map by assumption.
  assert (G : map (fun bx : bool * Q => fst bx && (qltb lower (snd bx) && Qle_bool (snd bx) upper))
                  (combine cur vals)
              = map (fun xy => fst xy && snd xy)
                    (combine cur (map (fun v => qltb lower v && Qle_bool v upper) vals))).
  { clear. revert vals. induction cur as [|b cur IH]; intros [|v vals]; cbn; try reflexivity.
    f_equal. apply IH. }
  rewrite G. rewrite (rows_of_map_combine _ _ andb) by (auto; now rewrite zlen_map).
  rewrite In_rows_true, andb_true_iff.
  assert (B : forall j, 0 <= j < zlen cur ->
     bget (map (fun v => qltb lower v && Qle_bool v upper) vals) j = true <->
     exists v, nth_error vals (Z.to_nat j) = Some v /\ (lower < v)%Q /\ (v <= upper)%Q).
  { intros j Hj. unfold bget. unfold zlen in Hj.
    destruct (nth_error vals (Z.to_nat j)) as [v|] eqn:E; [|apply nth_error_None in E; lia].
    pose proof (map_nth_error (fun v => qltb lower v && Qle_bool v upper) _ _ E) as E'.
    rewrite (nth_error_nth _ _ false E'), andb_true_iff, qltb_iff, Qle_bool_iff. split.
    - intros H. now exists v.
    - now intros (v' & [= ->] & H). }
  split; [intros (H1 & H2 & H3)|intros [[H1 H2] H3]].
  - split; [tauto|]. now apply B.
  - split; [assumption|]. split; [assumption|]. now apply B.
Qed.

Lemma length_masked_assign {A} m : forall (l new : list A), length (masked_assign m l new) = length l.
Proof.
  induction m as [|b m IH]; intros [|x l] new; cbn; try reflexivity.
  destruct b; [destruct new|]; cbn; now rewrite IH.
Qed.

Lemma constrain_property_bools mm m :
  exists l, convert_masks_to_bool mm m = InBools l.
Proof. destruct m; cbn; eauto. Qed.

Lemma constrain_property_ok mm key vals lower upper st st' :
  constrain_property mm key (Some vals) lower upper st = (st', None) ->
  exists l cur size, convert_masks_to_bool mm (ms_masks st) = InBools l /\
    nth_error l key = Some (cur, size) /\
    st' = mk_mask_state (Some CProperty) (ms_cell_mask st)
            (InBools (upd key (masked_assign cur cur
               (map (fun v => qltb lower v && Qle_bool v upper) (compress cur vals)), size) l)).
Proof.
  unfold constrain_property.
  destruct (constrain_property_bools mm (ms_masks st)) as [l E]. rewrite E.
  destruct (nth_error l key) as [[cur size]|] eqn:E2; [|discriminate].
  intros [= <-]. exists l, cur, size. auto.
Qed.

Lemma constrain_property_err mm key values lower upper st st' e :
  constrain_property mm key values lower upper st = (st', Some e) ->
  e = KeyError /\
  st' = mk_mask_state (ms_constrained st) (ms_cell_mask st) (convert_masks_to_bool mm (ms_masks st)).
Proof.
  unfold constrain_property.
  destruct (constrain_property_bools mm (ms_masks st)) as [l E]. rewrite E.
  destruct values as [vals|].
  - destruct (nth_error l key) as [[cur size]|] eqn:E2; [discriminate|].
    now intros [= <- <-].
  - now intros [= <- <-].
Qed.

Lemma nth_error_upd_cases {A} i j (x : A) l y :
  nth_error (upd i x l) j = Some y ->
  (i = j /\ y = x) \/ (i <> j /\ nth_error l j = Some y).
Proof.
  revert j l. induction i as [|i IH]; intros [|j] [|z l] H; cbn in *; try discriminate; auto.
  - left. split; congruence.
  - apply IH in H as [[-> ->]|[H1 H2]]; [left|right]; split; auto.
Qed.

Lemma Forall2_upd {A B} (R : A -> B -> Prop) l m i y :
  Forall2 R l m -> (forall a, nth_error l i = Some a -> R a y) -> Forall2 R l (upd i y m).
Proof.
  intros H. revert i. induction H; intros [|i] Hy; cbn; constructor; auto.
Qed.

Lemma good_property mm key vals lower upper st st' :
  Forall cells_in_file (mm_keys mm) -> good mm st ->
  constrain_property mm key (Some vals) lower upper st = (st', None) -> good mm st'.
Proof.
  intros Hf [Hg Hm] H. apply constrain_property_ok in H as (l & cur & size & El & Ek & ->).
  split; [exact Hg|]. cbn.
  pose proof (good_to_bool mm _ Hf Hm) as Hb. rewrite El in Hb. cbn in Hb.
  apply Forall2_upd; [assumption|]. intros mk Hk.
  destruct (Forall2_nth_r _ _ _ _ _ Hb Ek) as (mk' & Hk' & [H1 H2]).
  rewrite Hk in Hk'. injection Hk' as <-. split; cbn in *; [|assumption].
  unfold zlen in *. now rewrite length_masked_assign.
Qed.

Lemma selected_property mm key vals lower upper st st' k i :
  Forall cells_in_file (mm_keys mm) -> good mm st ->
  (forall mk, nth_error (mm_keys mm) key = Some mk -> zlen vals = key_total mk) ->
  constrain_property mm key (Some vals) lower upper st = (st', None) ->
  selected st' k i <->
  selected st k i /\
  (k = key -> exists v, nth_error vals (Z.to_nat i) = Some v /\ (lower < v)%Q /\ (v <= upper)%Q).
Proof.
  intros Hf [Hg Hm] Hv H. apply constrain_property_ok in H as (l & cur & size & El & Ek & ->).
  unfold selected. rewrite <- (rows_to_bool mm (ms_masks st) k i Hf Hm), El. cbn [ms_masks masked_rows].
  pose proof (good_to_bool mm _ Hf Hm) as Hb. rewrite El in Hb. cbn in Hb.
  destruct (Forall2_nth_r _ _ _ _ _ Hb Ek) as (mk & Hk & [H1 _]). cbn in H1.
  destruct (Nat.eq_dec key k) as [<-|Hne].
  - rewrite nth_error_upd_eq by (apply nth_error_Some; congruence). rewrite Ek. cbn.
    rewrite In_property_mask by (rewrite H1; now apply Hv). intuition.
  - rewrite nth_error_upd_neq by assumption. intuition congruence.
Qed.

(** * Index constraints *)

Lemma is_sorted_spec l : is_sorted l = true -> StronglySorted Z.le l.
Proof.
  intros H. apply Sorted_StronglySorted; [intros ? ? ?; lia|].
  induction l as [|a l IH]; [constructor|]. destruct l as [|b l]; [repeat constructor|].
  cbn in H. apply andb_true_iff in H as [H1 H2]. apply Z.leb_le in H1.
  constructor; [apply IH, H2|]. now constructor.
Qed.

Lemma np_sort_of_sorted l : StronglySorted Z.le l -> np_sort l = l.
Proof.
  intros H. apply sorted_perm_eq; [apply np_sort_sorted|assumption|apply np_sort_perm].
Qed.

Lemma sorted_indices_np_sort l : (if is_sorted l then l else np_sort l) = np_sort l.
Proof.
  destruct (is_sorted l) eqn:E; [|reflexivity]. symmetry. now apply np_sort_of_sorted, is_sorted_spec.
Qed.

Lemma Forall_perm {A} (P : A -> Prop) l m : Permutation l m -> Forall P l -> Forall P m.
Proof.
  intros Hp H. apply Forall_forall. intros x Hx. apply Permutation_sym in Hp.
  apply (Permutation_in _ Hp) in Hx. now apply (proj1 (Forall_forall _ _) H).
Qed.

Lemma set_indices_ok n indices :
  Forall (fun i => 0 <= i < n) indices ->
  exists c, set_indices n indices = Ok c /\ zlen c = Z.max 0 n /\
            forall j, 0 <= j < n -> bget c j = true <-> In j indices.
Proof.
  intros H. unfold set_indices.
  replace (forallb _ indices) with true.
  2:{ symmetry. apply forallb_forall. intros i Hi. apply (proj1 (Forall_forall _ _) H) in Hi.
      apply andb_true_iff. rewrite Z.leb_le, Z.ltb_lt. lia. }
  eexists. split; [reflexivity|]. split.
  - rewrite zlen_map, zlen_zrange. lia.
  - intros j Hj. unfold bget.
    assert (E : nth_error (zrange 0 n) (Z.to_nat j) = Some j).
    { rewrite nth_error_zrange by lia. f_equal. lia. }
    apply (map_nth_error (fun j => existsb (fun i => (i =? j) || (i + n =? j)) indices)) in E.
    rewrite (nth_error_nth _ _ false E). rewrite existsb_exists. split.
    + intros (i & Hi & Hor). apply (proj1 (Forall_forall _ _) H) in Hi as Hb.
      rewrite orb_true_iff, !Z.eqb_eq in Hor. assert (i = j) by lia. now subst.
    + intros Hi. exists j. split; [assumption|]. now rewrite Z.eqb_refl.
Qed.

Lemma indices_bool_loop_ok mks l indices :
  Forall2 mask_of_bools_ok mks l -> Forall (fun mk => Forall (fun i => 0 <= i < key_total mk) indices) mks ->
  exists l', indices_bool_loop indices l = (l', None) /\ Forall2 mask_of_bools_ok mks l' /\
    forall k i, (exists bs, nth_error l' k = Some bs /\ In i (rows_true (fst bs))) <->
                (exists bs, nth_error l k = Some bs /\ In i (rows_true (fst bs))) /\ In i indices.
Proof.
  intros H HI. induction H as [|mk [m size] mks l [H1 H2] Hrest IH].
  - exists []. split; [reflexivity|]. split; [constructor|].
    intros [|k] i; cbn; split; [intros (? & ? & _)|intros [(? & ? & _) _]| intros (? & ? & _)|intros [(? & ? & _) _]]; discriminate.
  - inversion HI as [|? ? Hi HI']; subst. destruct (IH HI') as (l' & E & F & G). cbn in H1, H2.
    destruct (set_indices_ok (zlen m) indices ltac:(now rewrite H1)) as (c & Ec & Lc & Hc).
    cbn [indices_bool_loop]. rewrite Ec, E.
    eexists. split; [reflexivity|]. pose proof (zlen_nonneg m) as Hnn.
    assert (Hlc : zlen m = zlen c) by lia. split.
    + constructor; [|assumption]. split; cbn; [|assumption]. rewrite zlen_map.
      unfold zlen in *. rewrite combine_length. lia.
    + intros [|k] i; cbn; [|apply G]. split.
      * intros (bs & [= <-] & Hin). cbn in Hin.
        rewrite (rows_of_map_combine _ _ andb) in Hin by auto.
        destruct Hin as [Hr Hand]. apply andb_true_iff in Hand as [Hm1 Hm2]. split.
        -- exists (m, size). split; [reflexivity|]. cbn. now apply In_rows_true.
        -- now apply Hc.
      * intros [(bs & [= <-] & Hin) Hidx]. cbn in Hin. apply In_rows_true in Hin as [Hr Hb].
        eexists. split; [reflexivity|]. cbn. rewrite (rows_of_map_combine _ _ andb) by auto.
        split; [assumption|]. rewrite Hb. cbn. now apply Hc.
Qed.

Lemma masked_rows_bools l k i :
  In i (masked_rows (InBools l) k) <->
  exists bs, nth_error l k = Some bs /\ In i (rows_true (fst bs)).
Proof.
  cbn. destruct (nth_error l k) as [bs|].
  - split; [eauto|]. now intros (? & [= <-] & ?).
  - split; [easy|]. now intros (? & ? & _).
Qed.

Definition indices_in_file (mm : mask_meta) (indices : list Z) : Prop :=
  Forall (fun mk => Forall (fun i => 0 <= i < key_total mk) indices) (mm_keys mm).

(** Outcome of [constrain_indices] with rows of the file. *)
Lemma constrain_indices_cases mm indices st :
  Forall cells_in_file (mm_keys mm) -> good mm st -> indices_in_file mm indices ->
  (constrain_indices mm indices st = (st, Some RuntimeError) /\
   (ms_constrained st <> None \/ mm_homogeneous mm = false)) \/
  (ms_constrained st = None /\ mm_homogeneous mm = true /\
   exists st', constrain_indices mm indices st = (st', None) /\ good mm st' /\
     ms_constrained st' = Some CIndices /\ ms_cell_mask st' = ms_cell_mask st /\
     match ms_masks st with
     | InRanges l => ms_masks st' = InRanges (map (fun _ => (ranges_from_array (np_sort indices), zlen indices)) l)
     | InBools _ => ~ in_range_form (ms_masks st') /\
                    forall k i, selected st' k i <-> selected st k i /\ In i indices
     end).
Proof.
  intros Hf [Hg Hm] Hi. unfold constrain_indices, constrain_indices_body.
  destruct (ms_constrained st) eqn:Ec.
  - left. split; [reflexivity|left; discriminate].
  - destruct (mm_homogeneous mm) eqn:Eh; cbn [negb].
    + right. split; [reflexivity|]. split; [reflexivity|].
      rewrite sorted_indices_np_sort.
      destruct (ms_masks st) as [l|l] eqn:Em.
      * eexists. split; [reflexivity|]. cbn. split; [|auto]. split; [exact Hg|]. cbn in *.
        clear - Hm Hi Hf. unfold indices_in_file in Hi.
        induction Hm as [|mk rs ks l _ _ IH]; cbn; constructor.
        -- inversion Hi as [|? ? Hb _]; subst. inversion Hf as [|? ? [Hn _] _]; subst.
           split; cbn.
           ++ apply ranges_from_array_bounds; [assumption|].
              eapply Forall_perm; [|exact Hb]. symmetry. apply np_sort_perm.
           ++ rewrite ranges_from_array_indices. unfold zlen. f_equal.
              apply Permutation_length. symmetry. apply np_sort_perm.
        -- inversion Hi; inversion Hf; subst. auto.
      * cbn in Hm. destruct (indices_bool_loop_ok _ _ _ Hm Hi) as (l' & E & F & G). rewrite E.
        eexists. split; [reflexivity|]. cbn. split; [split; assumption|].
        split; [reflexivity|]. split; [reflexivity|]. split; [tauto|].
        intros k i. specialize (G k i). rewrite <- !masked_rows_bools in G.
        unfold selected. rewrite Em. exact G.
    + left. split; [reflexivity|now right].
Qed.

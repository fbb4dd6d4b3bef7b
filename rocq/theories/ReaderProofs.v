(** Proofs about field access. *)
From Coq Require Import List ZArith QArith Lia Bool Permutation Sorted.
From Verif Require Import Base BaseLemmas RangesModel RangesSpec RangesProofs ChunkProofs
     OrderedSlicesProofs SortModel SortProofs MaskModel MaskSpec MaskListProofs MaskProofs
     MaskHistProofs MaskCountProofs ReaderModel ReaderSpec.
Import ListNotations.
Open Scope Z_scope.

Lemma Forall2_imp {A B} (R S : A -> B -> Prop) l m :
  Forall2 R l m -> (forall x y, R x y -> S x y) -> Forall2 S l m.
Proof. induction 1; constructor; auto. Qed.

Lemma Forall2_nth {A B} (R : A -> B -> Prop) l m i x :
  Forall2 R l m -> nth_error l i = Some x -> exists y, nth_error m i = Some y /\ R x y.
Proof.
  intros H. revert i. induction H; intros [|i] E; cbn in *; try discriminate.
  - injection E as ->. eauto.
  - now apply IHForall2.
Qed.

(** * Masks give ordered ranges *)

Definition tidy (k : nat) (m : masks) : Prop :=
  match m with
  | InRanges l => forall rs, nth_error l k = Some rs ->
                    ordered_ranges (fst rs) /\ StronglySorted Z.le (indices_of (fst rs))
  | InBools _ => True
  end.

Lemma ranges_loop_ordered l : forall start stop,
  start <= stop -> StronglySorted Z.le (stop :: l) ->
  ordered_ranges (ranges_loop start stop l) /\
  Forall (fun r => start <= fst r /\ stop + 1 <= snd r) (ranges_loop start stop l).
Proof.
  induction l as [|v l IH]; intros start stop H Hs; cbn [ranges_loop].
  - split; repeat constructor; cbn; lia.
  - inversion Hs as [|? ? Hs' Hle]; subst. inversion Hle as [|? ? Hv _]; subst.
    destruct (v =? stop + 1) eqn:E; cbn [negb].
    + apply Z.eqb_eq in E. destruct (IH start v ltac:(lia) Hs') as [I1 I2]. split; [assumption|].
      eapply Forall_impl; [|exact I2]. cbn. lia.
    + destruct (IH v v ltac:(lia) Hs') as [I1 I2]. split.
      * constructor; [assumption|]. eapply Forall_impl; [|exact I2]. cbn. lia.
      * constructor; [cbn; lia|]. eapply Forall_impl; [|exact I2]. cbn. lia.
Qed.

Lemma ranges_from_array_ordered l :
  StronglySorted Z.le l -> ordered_ranges (ranges_from_array l).
Proof.
  destruct l as [|x l]; intros H; [repeat constructor|]. cbn [ranges_from_array].
  now apply ranges_loop_ordered.
Qed.

Lemma SS_app (l m : list Z) :
  StronglySorted Z.le l -> StronglySorted Z.le m ->
  (forall x y, In x l -> In y m -> x <= y) -> StronglySorted Z.le (l ++ m).
Proof.
  induction 1 as [|x l Hl IH Hx]; intros Hm H; cbn; [assumption|].
  constructor; [apply IH; [assumption|]; intros; apply H; [now right|assumption]|].
  apply Forall_app. split; [assumption|]. apply Forall_forall. intros y Hy. apply H; [now left|assumption].
Qed.

Lemma zrange_sorted a b : StronglySorted Z.le (zrange a b).
Proof.
  unfold zrange. generalize 0%nat at 1 as s. generalize (Z.to_nat (b - a)) as n.
  induction n as [|n IH]; intros s; cbn; constructor; [apply IH|].
  apply Forall_map, Forall_forall. intros x Hx. apply in_seq in Hx. lia.
Qed.

Lemma tile_filter_tidy g cells : forall start stop,
  cells_tile start cells stop ->
  let rs := map cell_range (filter g cells) in
  ordered_ranges rs /\ StronglySorted Z.le (indices_of rs) /\
  Forall (fun r => start <= fst r /\ fst r <= snd r /\ snd r <= stop) rs.
Proof.
  induction cells as [|c cells IH]; intros start stop H; cbn in H |- *;
    [split; [|split]; constructor|].
  destruct H as (H1 & H2 & H3). destruct (IH _ _ H3) as (I1 & I2 & I3).
  pose proof (tile_bounds _ _ _ H3) as Hb.
  assert (I3' : Forall (fun r => start <= fst r /\ fst r <= snd r /\ snd r <= stop)
                       (map cell_range (filter g cells))).
  { eapply Forall_impl; [|exact I3]. cbn. lia. }
  destruct (g c); [|auto]. cbn [map]. unfold cell_range at 1 3 5. split; [|split].
  - constructor; [assumption|]. eapply Forall_impl; [|exact I3]. cbn. lia.
  - change (indices_of (?r :: ?l)) with (zrange (fst r) (snd r) ++ indices_of l).
    apply SS_app; [apply zrange_sorted|assumption|].
    intros x y Hx Hy. apply In_zrange in Hx. cbn in Hx. apply in_flat_map in Hy as (r & Hr & Hy).
    apply In_zrange in Hy. apply (proj1 (Forall_forall _ _) I3) in Hr. lia.
  - constructor; [cbn; lia|assumption].
Qed.

Lemma SS_lt_le l : StronglySorted Z.lt l -> StronglySorted Z.le l.
Proof.
  induction 1 as [|x l _ IH Hx]; constructor; [assumption|]. eapply Forall_impl; [|exact Hx].
  intros; lia.
Qed.

Lemma tidy_update mm k mk g m :
  nth_error (mm_keys mm) k = Some mk -> cells_tile 0 (key_cells mk) (key_total mk) ->
  tidy k (update_range_masks mm (cell_masks mm g) m).
Proof.
  intros Hk Ht. destruct m as [l|l]; [|rewrite update_bools; exact I].
  rewrite update_ranges. cbn. intros rs Hrs. rewrite nth_error_map, Hk in Hrs. injection Hrs as <-.
  unfold range_mask_of_cells. cbn [fst]. rewrite compress_map.
  destruct (tile_filter_tidy g _ _ _ Ht) as (I1 & I2 & _). split; assumption.
Qed.

Lemma tidy_to_ranges k m : tidy k m -> tidy k (convert_masks_to_ranges m).
Proof.
  destruct m as [l|l]; [trivial|]. intros _. cbn. intros rs H. rewrite nth_error_map in H.
  destruct (nth_error l k) as [bs|]; [|discriminate]. injection H as <-. cbn [fst].
  rewrite where_true_rows, ranges_from_array_indices.
  assert (S : StronglySorted Z.le (rows_true (fst bs))) by apply SS_lt_le, sorted_rows_true.
  split; [now apply ranges_from_array_ordered|assumption].
Qed.

Lemma tidy_step mm k mk op st :
  wf_meta mm -> good mm st -> ok_op mm op ->
  nth_error (mm_keys mm) k = Some mk -> cells_tile 0 (key_cells mk) (key_total mk) ->
  tidy k (ms_masks st) -> tidy k (ms_masks (fst (mask_step mm op st))).
Proof.
  intros Hw Hgood Hok Hk Ht Hs. pose proof Hw as (Hb & Hf & _). pose proof Hgood as [Hg Hm].
  assert (HI : forall indices, indices_in_file mm indices ->
             tidy k (ms_masks (fst (constrain_indices mm indices st)))).
  { intros indices Hi.
    destruct (constrain_indices_cases mm indices st Hf Hgood Hi) as [[E _]|(_ & _ & st' & E & _ & _ & _ & M)];
      rewrite E; cbn [fst]; [assumption|].
    destruct (ms_masks st) as [l|l].
    - rewrite M. cbn. intros rs H. rewrite nth_error_map in H.
      destruct (nth_error l k); [|discriminate]. injection H as <-. cbn [fst].
      rewrite ranges_from_array_indices. split; [apply ranges_from_array_ordered|]; apply np_sort_sorted.
    - destruct M as [M _]. destruct (ms_masks st'); [exfalso; apply M; exact I|exact I]. }
  destruct op; cbn [mask_step].
  - destruct (constrain_spatial_cases mm region union st Hb Hg)
      as [[_ E]|[(_ & _ & E)|[(_ & _ & _ & E)|(_ & _ & _ & r & g & _ & _ & E)]]];
      cbv zeta in E; rewrite E; cbn [fst ms_masks]; try assumption. now apply (tidy_update mm k mk).
  - unfold constrain_property. destruct (constrain_property_bools mm (ms_masks st)) as [l ->].
    destruct values; [|exact I]. destruct (nth_error l key) as [[]|]; exact I.
  - rewrite constrain_index_cases.
    assert (Hok' : indices_in_file mm [index]).
    { eapply Forall_impl; [|exact Hok]. intros m H. now constructor. }
    specialize (HI [index] Hok'). destruct (constrain_indices mm [index] st) as [s [e|]]; exact HI.
  - now apply HI.
  - now apply tidy_to_ranges.
  - cbn [fst ms_masks]. destruct (constrain_property_bools mm (ms_masks st)) as [l ->]. exact I.
Qed.

Lemma tidy_run mm k mk ops : forall st,
  wf_meta mm -> good mm st -> Forall (ok_op mm) ops ->
  nth_error (mm_keys mm) k = Some mk -> cells_tile 0 (key_cells mk) (key_total mk) ->
  tidy k (ms_masks st) -> tidy k (ms_masks (fst (mask_run mm ops st))).
Proof.
  induction ops as [|op ops IH]; intros st Hw Hg Hok Hk Ht Hs; [assumption|].
  inversion Hok; subst. rewrite mask_run_cons. cbn [fst]. apply IH; auto.
  - now apply good_step.
  - now apply (tidy_step mm k mk).
Qed.

Lemma reachable_tidy mm st k mk :
  wf_meta mm -> reachable mm st ->
  nth_error (mm_keys mm) k = Some mk -> cells_tile 0 (key_cells mk) (key_total mk) ->
  tidy k (ms_masks st).
Proof.
  intros Hw (ops & Hok & <-) Hk Ht. apply (tidy_run mm k mk); auto.
  - apply good_new, Hw.
  - unfold new_mask. cbn [ms_masks]. change (full_cell_mask mm) with (cell_masks mm (fun _ => true)).
    now apply (tidy_update mm k mk).
Qed.

(** The mask the reader uses. *)
Lemma group_mask_spec mm st k mk :
  wf_meta mm -> reachable mm st ->
  nth_error (mm_keys mm) k = Some mk -> cells_tile 0 (key_cells mk) (key_total mk) ->
  exists rs, group_mask (Some st) k = Some rs /\
    Forall (in_bounds (key_total mk)) (fst rs) /\ snd rs = total_rows (fst rs) /\
    ordered_ranges (fst rs) /\ StronglySorted Z.le (indices_of (fst rs)) /\
    (forall i, In i (indices_of (fst rs)) <-> selected st k i).
Proof.
  intros Hw Hr Hk Ht. pose proof (reachable_tidy _ _ _ _ Hw Hr Hk Ht) as Hs.
  destruct (reachable_good _ _ Hw Hr) as [_ Hm]. destruct Hw as (_ & Hf & _).
  apply tidy_to_ranges in Hs. pose proof (rows_to_ranges (ms_masks st) k) as R.
  pose proof (good_to_ranges mm (ms_masks st) Hm) as Hm'.
  unfold group_mask. destruct (convert_masks_to_ranges (ms_masks st)) as [l|l] eqn:El.
  2:{ destruct (ms_masks st); discriminate. }
  cbn in Hm'. destruct (Forall2_nth _ _ _ _ _ Hm' Hk) as (rs & Ers & [B S]).
  exists rs. split; [assumption|]. cbn in Hs. destruct (Hs rs Ers) as [O1 O2].
  split; [assumption|]. split.
  { rewrite S. apply zlen_indices_of. eapply Forall_impl; [|exact B]. unfold in_bounds. cbn. intros; lia. }
  split; [assumption|]. split; [assumption|]. intros i. unfold selected. rewrite <- R. cbn.
  now rewrite Ers.
Qed.

(** * Reading *)

Lemma NoDup_app_inv {A} (l m : list A) :
  NoDup (l ++ m) -> NoDup m /\ forall x, In x l -> ~ In x m.
Proof.
  induction l as [|x l IH]; cbn; intros H; [split; [assumption|tauto]|].
  inversion H as [|? ? Hx Hl]; subst. destruct (IH Hl) as [I1 I2]. split; [assumption|].
  intros y [<-|Hy]; [|now apply I2]. intros C. apply Hx, in_or_app. now right.
Qed.

Lemma nodup_disjoint rs : NoDup (indices_of rs) -> pairwise_disjoint rs.
Proof.
  induction rs as [|r rs IH]; intros H; [constructor|].
  change (indices_of (r :: rs)) with (zrange (fst r) (snd r) ++ indices_of rs) in H.
  apply NoDup_app_inv in H as [H1 H2]. constructor; [|now apply IH].
  apply Forall_forall. intros s Hs x [Hx1 Hx2]. apply (H2 x); [now apply In_zrange|].
  apply in_flat_map. exists s. split; [assumption|]. now apply In_zrange.
Qed.

Lemma read_ranges_any {A B} argsort (col : A -> B) data lay rs :
  is_argsort argsort -> (forall c, lay = Chunked c -> 0 < c) ->
  Forall (in_bounds (zlen data)) rs -> ordered_ranges rs ->
  (lay = Remote -> NoDup (indices_of rs) /\ rs <> []) ->
  read_ranges argsort lay col data rs (total_rows rs) = Ok (map Some (all_rows col data rs)).
Proof.
  intros Harg Hc Hin Hord Hrem. destruct lay as [|c|]; cbn [read_ranges].
  - now apply unchunked_exact.
  - destruct ((0 <? zlen rs) && (sumZ (map (fun b => snd b - fst b) rs) <? 500000 * zlen rs)) eqn:E.
    + apply chunked_exact; auto. intros ->. discriminate.
    + now apply unchunked_exact.
  - destruct Hrem as [H1 H2]; [reflexivity|]. apply remote_exact; auto. now apply nodup_disjoint.
Qed.

Lemma entry_of_select {V} n (f : field V) column row :
  field_of n f -> column_ok f column -> In row (fd_rows f) ->
  entry_of f column row (select_column f column row).
Proof.
  intros (_ & Hw & _) Hc Hin. unfold entry_of, select_column. destruct column as [j|]; [|reflexivity].
  cbn in Hc. destruct (fd_2d f); [|reflexivity]. specialize (Hw eq_refl). specialize (Hc eq_refl).
  apply (proj1 (Forall_forall _ _) Hw) in Hin.
  destruct (nth_error row j) as [v|] eqn:E.
  - exists v. split; [reflexivity|]. clear - E. revert row E.
    induction j as [|j IH]; intros [|x row] E; try discriminate; cbn in *.
    + now injection E as ->.
    + now apply IH.
  - apply nth_error_None in E. unfold zlen in Hin. lia.
Qed.

Lemma rows_are_shows {V} n (f : field V) column idx out :
  field_of n f -> column_ok f column ->
  rows_are (select_column f column) (fd_rows f) idx out -> shows_rows f column idx out.
Proof.
  intros Hf Hc H. unfold rows_are in H. unfold shows_rows. eapply Forall2_imp; [exact H|].
  cbn. intros i o (Hi & row & Hrow & ->). split; [assumption|].
  exists row, (select_column f column row). split; [assumption|]. split; [reflexivity|].
  apply (entry_of_select n); auto. eapply nth_error_In. exact Hrow.
Qed.

Lemma column_ok_not_bad {V} (f : field V) column :
  column_ok f column ->
  match column with Some j => fd_2d f && (fd_width f <=? Z.of_nat j) | None => false end = false.
Proof.
  destruct column as [j|]; [|reflexivity]. cbn. intros H. destruct (fd_2d f); [|reflexivity].
  specialize (H eq_refl). cbn. lia.
Qed.

Lemma read_field_masked {V} argsort (f : field V) column rs :
  is_argsort argsort -> field_of (zlen (fd_rows f)) f -> column_ok f column ->
  Forall (in_bounds (zlen (fd_rows f))) rs -> ordered_ranges rs ->
  (fd_layout f = Remote -> NoDup (indices_of rs) /\ rs <> []) ->
  exists out, read_field argsort (Some (rs, total_rows rs)) column f = Ok out /\
              shows_rows f column (indices_of rs) out.
Proof.
  intros Harg Hf Hc Hin Hord Hrem. unfold read_field. rewrite column_ok_not_bad by assumption.
  rewrite read_ranges_any; auto; [|apply Hf]. eexists. split; [reflexivity|].
  apply (rows_are_shows (zlen (fd_rows f))); auto. now apply all_rows_are.
Qed.

Lemma read_field_unmasked {V} argsort (f : field V) column :
  field_of (zlen (fd_rows f)) f -> column_ok f column ->
  exists out, read_field argsort None column f = Ok out /\
              shows_rows f column (zrange 0 (zlen (fd_rows f))) out.
Proof.
  intros Hf Hc. unfold read_field. rewrite column_ok_not_bad by assumption.
  eexists. split; [reflexivity|]. apply (rows_are_shows (zlen (fd_rows f))); auto.
  unfold rows_are. clear Hf Hc.
  set (sel := select_column f column). clearbody sel. generalize (fd_rows f) as l. intros l.
  assert (G : forall l pre, Forall2 (fun i o => 0 <= i /\ exists row, nth_error (pre ++ l) (Z.to_nat i) = Some row
                                     /\ o = Some (sel row))
                 (map (fun j => zlen pre + Z.of_nat j) (seq 0 (length l)))
                 (map (fun r => Some (sel r)) l)).
  { clear. induction l as [|r l IH]; intros pre; [constructor|]. cbn [length seq map]. constructor.
    - split; [pose proof (zlen_nonneg pre); lia|]. exists r. split; [|reflexivity].
      rewrite nth_error_app2; unfold zlen; [|lia].
      replace (Z.to_nat _ - length pre)%nat with O by lia. reflexivity.
    - specialize (IH (pre ++ [r])). rewrite <- app_assoc in IH. cbn in IH.
      rewrite <- seq_shift, map_map. erewrite map_ext; [exact IH|].
      intros j. cbn. rewrite zlen_app. unfold zlen. cbn. lia. }
  specialize (G l []). unfold zrange, zlen. cbn in G.
  replace (Z.to_nat (Z.of_nat (length l) - 0)) with (length l) by lia. exact G.
Qed.

(** * Lazy access *)

Lemma slot_eqb_iff a b : slot_eqb a b = true <-> a = b.
Proof.
  unfold slot_eqb. destruct a as [i [j|]], b as [i' [j'|]]; cbn;
    destruct (Nat.eqb_spec i i') as [Ei|Ei]; cbn; try destruct (Nat.eqb_spec j j') as [Ej|Ej];
    split; intros; congruence.
Qed.

Lemma slot_eqb_refl s : slot_eqb s s = true.
Proof. now apply slot_eqb_iff. Qed.

Section Lazy.
Context {A : Type} (read : slot_reader A).

(** The cache holds the current value, or nothing while the current value is the content. *)
Definition cached (st : ds_state A) (h : list (ds_op A)) : Prop :=
  forall s, match ds_cache st s with
            | Some v => current_value read h s = Ok (Some v)
            | None => current_value read h s = read s
            end.

Lemma current_value_snoc h op s :
  current_value read (h ++ [op]) s
  = if slot_eqb (slot_of op) s then value_after (read s) op (current_value read h s)
    else current_value read h s.
Proof.
  unfold current_value. rewrite filter_app. cbn. destruct (slot_eqb (slot_of op) s).
  - now rewrite fold_left_app.
  - now rewrite app_nil_r.
Qed.

Lemma ds_get_spec st h s :
  cached st h ->
  snd (ds_get read st s) = current_value read h s /\ cached (fst (ds_get read st s)) h /\
  (forall v, current_value read h s = Ok (Some v) -> ds_cache (fst (ds_get read st s)) s = Some v).
Proof.
  intros H. pose proof (H s) as Hs. unfold ds_get. destruct (ds_cache st s) as [v|] eqn:Ec.
  - cbn. split; [auto|]. split; [assumption|]. intros w E. congruence.
  - rewrite Hs. destruct (read s) as [[v|]|e] eqn:Er; cbn; (split; [reflexivity|]); (split; [|congruence||idtac]).
    + intros t. cbn. unfold ds_put. destruct (slot_eqb s t) eqn:E.
      * apply slot_eqb_iff in E as <-. congruence.
      * apply H.
    + unfold ds_put. rewrite slot_eqb_refl. congruence.
    + exact H.
    + exact H.
Qed.

Lemma ds_step_spec st h op :
  cached st h ->
  snd (ds_step read st op) = expected_output read h op /\ cached (fst (ds_step read st op)) (h ++ [op]).
Proof.
  intros H. destruct op as [s|s v|s|s f]; cbn [ds_step expected_output].
  - destruct (ds_get_spec st h s H) as (H1 & H2 & _). split; [assumption|]. intros t.
    rewrite current_value_snoc. cbn. specialize (H2 t). now destruct (slot_eqb s t).
  - split; [reflexivity|]. intros t. rewrite current_value_snoc. cbn. unfold ds_put.
    destruct (slot_eqb s t); [now destruct v|apply H].
  - split; [reflexivity|]. intros t. rewrite current_value_snoc. cbn. unfold ds_put.
    destruct (slot_eqb s t); [reflexivity|apply H].
  - destruct (ds_get_spec st h s H) as (H1 & H2 & H3). rewrite <- H1 in H3 |- *.
    destruct (ds_get read st s) as [st' out] eqn:E. cbn [fst snd] in *.
    destruct out as [[v|]|e]; (split; [reflexivity|]); intros t; rewrite current_value_snoc; cbn.
    + unfold ds_put. destruct (slot_eqb s t) eqn:Es; [|apply H2].
      apply slot_eqb_iff in Es as <-. now rewrite <- H1.
    + specialize (H2 t). destruct (slot_eqb s t) eqn:Es; [|exact H2].
      apply slot_eqb_iff in Es as <-. rewrite <- H1 in *. destruct (ds_cache st' s); auto.
    + specialize (H2 t). destruct (slot_eqb s t) eqn:Es; [|exact H2].
      apply slot_eqb_iff in Es as <-. rewrite <- H1 in *. destruct (ds_cache st' s); auto.
Qed.

Lemma ds_run_cons op ops st :
  ds_run read (op :: ops) st
  = (fst (ds_run read ops (fst (ds_step read st op))),
     snd (ds_step read st op) :: snd (ds_run read ops (fst (ds_step read st op)))).
Proof.
  cbn. destruct (ds_step read st op) as [st' e]. cbn. destruct (ds_run read ops st'). reflexivity.
Qed.

Lemma ds_run_spec ops : forall st h,
  cached st h ->
  cached (fst (ds_run read ops st)) (h ++ ops) /\
  forall i op, nth_error ops i = Some op ->
    nth_error (snd (ds_run read ops st)) i = Some (expected_output read (h ++ firstn i ops) op).
Proof.
  induction ops as [|op ops IH]; intros st h H.
  - rewrite app_nil_r. split; [assumption|]. intros [|i] op E; discriminate.
  - rewrite ds_run_cons. cbn [fst snd]. destruct (ds_step_spec st h op H) as [H1 H2].
    destruct (IH _ _ H2) as [I1 I2]. rewrite <- app_assoc in I1. split; [assumption|].
    intros [|i] op' E; cbn in E |- *.
    + injection E as <-. now rewrite app_nil_r, H1.
    + rewrite (I2 _ _ E). now rewrite <- app_assoc.
Qed.

Lemma cached_init : cached ds_init [].
Proof. intros s. reflexivity. Qed.

(** Reads: a slot is read again only after it was dropped. *)
Definition pending (st : ds_state A) (s : slot) : nat :=
  match ds_cache st s with Some _ => 0 | None => 1 end.

Lemma reads_step s v st op :
  read s = Ok (Some v) ->
  (occurrences s (ds_reads (fst (ds_step read st op))) + pending (fst (ds_step read st op)) s
   <= occurrences s (ds_reads st) + pending st s + (if drops s op then 1 else 0))%nat.
Proof.
  intros Hr.
  assert (G : forall t, (occurrences s (ds_reads (fst (ds_get read st t)))
                         + pending (fst (ds_get read st t)) s
                         <= occurrences s (ds_reads st) + pending st s)%nat).
  { intros t. unfold ds_get. destruct (ds_cache st t) eqn:Ec; [cbn; lia|].
    destruct (slot_eqb s t) eqn:Es.
    - apply slot_eqb_iff in Es as <-. rewrite Hr. cbn [fst ds_reads]. unfold occurrences. cbn.
      rewrite slot_eqb_refl. unfold pending, ds_put. cbn. rewrite slot_eqb_refl, Ec. cbn. lia.
    - assert (N : slot_eqb t s = false).
      { destruct (slot_eqb t s) eqn:E; [|reflexivity]. apply slot_eqb_iff in E as <-.
        now rewrite slot_eqb_refl in Es. }
      destruct (read t) as [[w|]|e]; cbn [fst ds_reads]; unfold occurrences, pending, ds_put; cbn;
        rewrite Es, ?N; lia. }
  destruct op as [t|t w|t|t f]; cbn [ds_step drops].
  - specialize (G t). lia.
  - cbn [fst ds_reads]. unfold pending, ds_put. cbn. destruct (slot_eqb t s) eqn:E.
    + destruct w; cbn; destruct (ds_cache st s); cbn; lia.
    + destruct w; lia.
  - cbn [fst ds_reads]. unfold pending, ds_put. cbn. destruct (slot_eqb t s) eqn:E.
    + destruct (ds_cache st s); cbn; lia.
    + lia.
  - specialize (G t). destruct (ds_get read st t) as [st' [[w|]|e]]; cbn [fst ds_reads] in *; try lia.
    unfold pending, ds_put in *. cbn. destruct (slot_eqb t s); lia.
Qed.

Lemma reads_run s v ops : forall st,
  read s = Ok (Some v) ->
  (occurrences s (ds_reads (fst (ds_run read ops st))) + pending (fst (ds_run read ops st)) s
   <= occurrences s (ds_reads st) + pending st s + length (filter (drops s) ops))%nat.
Proof.
  induction ops as [|op ops IH]; intros st Hr; [cbn; lia|].
  rewrite ds_run_cons. cbn [fst]. specialize (IH (fst (ds_step read st op)) Hr).
  pose proof (reads_step s v st op Hr). cbn [filter]. destruct (drops s op); cbn [length]; lia.
Qed.

End Lazy.

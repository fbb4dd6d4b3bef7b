(** Proofs about subset files. *)
From Coq Require Import String List ZArith QArith Lia Bool Permutation Sorted.
From Verif Require Import Base BaseLemmas RangesModel RangesSpec RangesProofs OrderedSlicesProofs SortModel SortProofs
     MaskModel MaskSpec MaskListProofs MaskProofs MaskHistProofs MaskCountProofs
     ReaderModel ReaderSpec ReaderProofs SubsetModel SubsetSpec.
Import ListNotations.
Open Scope Z_scope.

(** * Orders *)

Definition valid_order (n : nat) (o : list nat) : Prop := Forall (fun i => (i < n)%nat) o.

Lemma valid_perm n o : Permutation o (seq 0 n) -> valid_order n o.
Proof.
  intros H. apply Forall_forall. intros i Hi. apply (Permutation_in _ H), in_seq in Hi. lia.
Qed.

Lemma take_order_cons {A} (l : list A) i o :
  take_order l (i :: o) = match nth_error l i with Some x => x :: take_order l o | None => take_order l o end.
Proof. unfold take_order. cbn. destruct (nth_error l i); reflexivity. Qed.

Lemma take_order_length {A} (l : list A) o : valid_order (length l) o -> length (take_order l o) = length o.
Proof.
  induction 1 as [|i o Hi _ IH]; [reflexivity|]. rewrite take_order_cons.
  destruct (nth_error l i) eqn:E; [cbn; now f_equal|]. apply nth_error_None in E. lia.
Qed.

Lemma zip3_cons {A B C D} (f : A -> B -> C -> D) a l b m c n :
  zip3 f (a :: l) (b :: m) (c :: n) = f a b c :: zip3 f l m n.
Proof. reflexivity. Qed.

Lemma take_order_zip3 {A B C D} (f : A -> B -> C -> D) l m n o :
  length m = length l -> length n = length l -> valid_order (length l) o ->
  take_order (zip3 f l m n) o = zip3 f (take_order l o) (take_order m o) (take_order n o).
Proof.
  intros Hm Hn. induction 1 as [|i o Hi _ IH]; [reflexivity|]. rewrite !take_order_cons.
  destruct (nth_error l i) as [a|] eqn:Ea; [|apply nth_error_None in Ea; lia].
  destruct (nth_error m i) as [b|] eqn:Eb; [|apply nth_error_None in Eb; lia].
  destruct (nth_error n i) as [c|] eqn:Ec; [|apply nth_error_None in Ec; lia].
  rewrite (zip3_nth f _ _ _ _ _ _ _ Ea Eb Ec), zip3_cons. now f_equal.
Qed.

Lemma take_order_map {A B} (f : A -> B) l o : take_order (map f l) o = map f (take_order l o).
Proof.
  induction o as [|i o IH]; [reflexivity|]. rewrite !take_order_cons, nth_error_map.
  destruct (nth_error l i); cbn; now rewrite IH.
Qed.

Lemma take_order_id {A} (l : list A) : take_order l (seq 0 (length l)) = l.
Proof.
  apply take_order_unique. apply Forall2_nth_intro; [now rewrite seq_length|].
  intros i a b Ha Hb. assert ((i < length l)%nat) by (apply nth_error_Some; congruence).
  rewrite nth_error_seq in Ha by assumption. injection Ha as <-. exact Hb.
Qed.

Lemma sort_keys_id l : StronglySorted (fun a b => fst a <= fst b) l -> sort_keys l = l.
Proof.
  induction 1 as [|x l Hl IH Hx]; [reflexivity|]. cbn. unfold sort_keys in IH. rewrite IH.
  destruct l as [|y l]; [reflexivity|]. cbn. inversion Hx; subst.
  destruct (Z.leb_spec (fst x) (fst y)); [reflexivity|lia].
Qed.

Lemma stable_argsort_sorted l : StronglySorted Z.le l -> stable_argsort l = seq 0 (length l).
Proof.
  intros H. unfold stable_argsort. rewrite sort_keys_id; [apply map_combine_snd|].
  generalize 0%nat. induction H as [|x l Hl IH Hx]; intros s; cbn; constructor; [apply IH|].
  apply Forall_forall. intros [k i] Hin. apply in_combine_l in Hin.
  apply (proj1 (Forall_forall _ _) Hx) in Hin. exact Hin.
Qed.

(** * Groups and keys *)

Lemma filter_nth {A} (p : A -> bool) : forall l g x, nth_error l g = Some x -> p x = true ->
  nth_error (filter p l) (length (filter p (firstn g l))) = Some x.
Proof.
  induction l as [|y l IH]; intros [|g] x H Hp; try discriminate; cbn in *.
  - injection H as ->. now rewrite Hp.
  - destruct (p y); cbn; now apply IH.
Qed.

Lemma filter_nth_inv {A} (p : A -> bool) : forall l k x, nth_error (filter p l) k = Some x ->
  exists g, nth_error l g = Some x /\ p x = true /\ k = length (filter p (firstn g l)).
Proof.
  induction l as [|y l IH]; intros k x H; [destruct k; discriminate|]. cbn in H.
  destruct (p y) eqn:Ey.
  - destruct k as [|k]; cbn in H.
    + injection H as ->. exists 0%nat. auto.
    + destruct (IH k x H) as (g & H1 & H2 & H3). exists (S g). cbn. rewrite Ey. cbn. auto.
  - destruct (IH k x H) as (g & H1 & H2 & H3). exists (S g). cbn. rewrite Ey. auto.
Qed.

Lemma assign_keys_nth {V A} : forall (gs : list (group V)) (keys : list A) g gr,
  nth_error gs g = Some gr ->
  nth_error (assign_keys gs keys) g
  = Some (if present gr then nth_error keys (length (filter present (firstn g gs))) else None, gr).
Proof.
  induction gs as [|h gs IH]; intros keys [|g] gr H; try discriminate; cbn in *.
  - injection H as ->. destruct (present gr); [destruct keys|]; reflexivity.
  - destruct (present h).
    + destruct keys as [|k keys]; cbn; rewrite (IH _ g gr H); [|reflexivity].
      destruct (present gr); [|reflexivity]. now destruct (length (filter present (firstn g gs))).
    + cbn. now rewrite (IH _ g gr H).
Qed.

Lemma assign_keys_length {V A} : forall (gs : list (group V)) (keys : list A),
  length (assign_keys gs keys) = length gs.
Proof.
  induction gs as [|h gs IH]; intros keys; [reflexivity|]. cbn.
  destruct (present h); [destruct keys|]; cbn; now rewrite IH.
Qed.

(** The key of a present group. *)
Lemma group_key {V} (f : sfile V) g gr : nth_error (f_groups f) g = Some gr -> present gr = true ->
  nth_error (mm_keys (mask_meta_of f)) (key_of f g)
  = Some (mk_mask_key (take_order (raw_cells_of_key (raw_of_file f) (raw_of_group gr)) (cell_sort_of f))
                      (g_count gr)).
Proof.
  intros H Hp. unfold mask_meta_of, unpack_cell_metadata, key_of. cbn [mm_keys raw_of_file rc_keys].
  rewrite !nth_error_map, (filter_nth _ _ _ _ H Hp). reflexivity.
Qed.

Lemma key_group {V} (f : sfile V) k mk : nth_error (mm_keys (mask_meta_of f)) k = Some mk ->
  exists g gr, nth_error (f_groups f) g = Some gr /\ present gr = true /\ k = key_of f g.
Proof.
  unfold mask_meta_of, unpack_cell_metadata. cbn [mm_keys raw_of_file rc_keys].
  rewrite !nth_error_map. intros H. destruct (nth_error (filter present (f_groups f)) k) as [gr|] eqn:E; [|discriminate].
  apply filter_nth_inv in E as (g & H1 & H2 & H3). exists g, gr. auto.
Qed.

Lemma cell_sort_perm {V} (f : sfile V) g gr : wf_raw (raw_of_file f) ->
  nth_error (f_groups f) g = Some gr -> present gr = true ->
  Permutation (cell_sort_of f) (seq 0 (length (f_centres f))).
Proof.
  intros Hw H Hp. unfold cell_sort_of.
  destruct (rc_keys (raw_of_file f)) as [|rk rks] eqn:E.
  - exfalso. cbn in E. apply map_eq_nil in E.
    assert (In gr (filter present (f_groups f))) by (apply filter_In; split; [eapply nth_error_In; exact H|assumption]).
    rewrite E in H0. destruct H0.
  - destruct (stable_argsort_is_argsort (rk_offsets rk)) as [P _].
    destruct (wf_raw_lengths (raw_of_file f) rk Hw) as (L & _); [rewrite E; now left|].
    now rewrite L in P.
Qed.

Lemma group_lengths {V} (f : sfile V) g gr : wf_raw (raw_of_file f) ->
  nth_error (f_groups f) g = Some gr -> present gr = true ->
  rk_lengths (raw_of_file f) (raw_of_group gr).
Proof.
  intros Hw H Hp. apply wf_raw_lengths; [assumption|]. cbn. apply in_map, filter_In.
  split; [eapply nth_error_In; exact H|assumption].
Qed.

Lemma group_cells_length {V} (f : sfile V) g gr : wf_raw (raw_of_file f) ->
  nth_error (f_groups f) g = Some gr -> present gr = true ->
  length (take_order (raw_cells_of_key (raw_of_file f) (raw_of_group gr)) (cell_sort_of f))
  = length (f_centres f).
Proof.
  intros Hw H Hp. pose proof (cell_sort_perm f g gr Hw H Hp) as P.
  pose proof (raw_cells_length _ _ (group_lengths f g gr Hw H Hp)) as L. cbn [raw_of_file rc_centres] in L.
  rewrite take_order_length.
  - now rewrite (Permutation_length P), seq_length.
  - rewrite L. now apply valid_perm.
Qed.

(** * Fields *)

Lemma all_some_map {A} (l : list A) : all_some (map Some l) = Some l.
Proof. induction l as [|x l IH]; [reflexivity|]. cbn. now rewrite IH. Qed.

Lemma write_field_ok {V} argsort n (fd : field V) rs :
  is_argsort argsort -> field_of n fd -> fd_rows fd <> [] -> fd_layout fd <> Remote ->
  Forall (in_bounds n) rs -> ordered_ranges rs ->
  exists fd', write_field argsort (Some (rs, total_rows rs)) fd = Ok fd' /\
              field_subset (indices_of rs) fd fd' /\ fd_layout fd' = Contiguous.
Proof.
  intros Harg Hf Hne Hl Hin Hord. pose proof Hf as (Hlen & _ & Hch). unfold write_field.
  destruct (fd_rows fd) as [|r0 rows] eqn:E; [congruence|]. rewrite <- E in *. clear E.
  rewrite read_ranges_any; auto; [|now rewrite Hlen|contradiction]. cbn [bind].
  rewrite all_some_map. eexists. split; [reflexivity|]. split; [|reflexivity].
  split; [|split; reflexivity]. cbn.
  assert (H : rows_are (fun r => r) (fd_rows fd) (indices_of rs) (map Some (all_rows (fun r => r) (fd_rows fd) rs))).
  { apply all_rows_are. now rewrite Hlen. }
  unfold rows_are in H. unfold picks.
  remember (all_rows (fun r => r) (fd_rows fd) rs) as l eqn:El. clear El.
  revert H. generalize (indices_of rs). clear.
  induction l as [|x l IH]; intros [|i idx] H; inversion H; subst; constructor.
  - destruct H3 as (H1 & row & H2 & H4). injection H4 as ->. auto.
  - now apply IH.
Qed.

Lemma write_field_empty {V} argsort mask (fd : field V) : fd_rows fd = [] -> write_field argsort mask fd = Err IndexError.
Proof. intros H. unfold write_field. now rewrite H. Qed.

Lemma all_ok_Forall2 {A B} (f : A -> res B) (R : A -> B -> Prop) l :
  Forall (fun a => exists b, f a = Ok b /\ R a b) l ->
  exists r, all_ok (map f l) = Ok r /\ Forall2 R l r.
Proof.
  induction 1 as [|a l (b & E & Hb) _ (r & IH1 & IH2)]; [exists []; split; [reflexivity|constructor]|].
  exists (b :: r). cbn. rewrite E, IH1. split; [reflexivity|now constructor].
Qed.

Lemma all_ok_err {A} (l : list (res A)) r : all_ok l = Ok r -> Forall (fun x => exists a, x = Ok a) l.
Proof.
  intros H. apply all_ok_spec in H as ->. apply Forall_map, Forall_forall. eauto.
Qed.

(** * Positions in a masked file *)

Definition count_lt (v : Z) (rows : list Z) : Z := zlen (filter (fun x => x <? v) rows).

Lemma count_lt_sorted v : forall rows p row, StronglySorted Z.le rows ->
  nth_error rows p = Some row -> (row < v <-> Z.of_nat p < count_lt v rows).
Proof.
  intros rows p row H. revert p row. induction H as [|x rows Hr IH Hx]; intros [|p] row E; try discriminate.
  - injection E as ->. unfold count_lt. cbn. destruct (Z.ltb_spec row v) as [C|C].
    + rewrite zlen_cons. pose proof (zlen_nonneg (filter (fun y => y <? v) rows)). lia.
    + rewrite filter_none; [cbn; lia|]. intros y Hy. apply (proj1 (Forall_forall _ _) Hx) in Hy.
      destruct (Z.ltb_spec y v); [lia|reflexivity].
  - cbn in E. unfold count_lt in *. cbn. destruct (Z.ltb_spec x v) as [C|C].
    + rewrite zlen_cons, (IH p row E). lia.
    + apply nth_error_In in E. apply (proj1 (Forall_forall _ _) Hx) in E.
      rewrite filter_none; [cbn; lia|]. intros y Hy. apply (proj1 (Forall_forall _ _) Hx) in Hy.
      destruct (Z.ltb_spec y v); [lia|reflexivity].
Qed.

Lemma count_lt_cell c rows : 0 <= cell_count c ->
  count_lt (cell_offset c + cell_count c) rows = count_lt (cell_offset c) rows + count_in c rows.
Proof.
  intros Hc. unfold count_lt, count_in. induction rows as [|x rows IH]; [reflexivity|]. cbn.
  destruct (Z.ltb_spec x (cell_offset c + cell_count c)), (Z.ltb_spec x (cell_offset c)),
           (Z.leb_spec (cell_offset c) x); cbn [andb]; rewrite ?zlen_cons;
    try lia.
Qed.

Lemma tile_count_lt rows : forall cells start stop j c, cells_tile start cells stop ->
  nth_error cells j = Some c ->
  count_lt (cell_offset c) rows = count_lt start rows + sumZ (map (fun c => count_in c rows) (firstn j cells)).
Proof.
  induction cells as [|d cells IH]; intros start stop [|j] c H E; try discriminate; cbn in H.
  - injection E as ->. destruct H as (-> & _). cbn. lia.
  - destruct H as (Hd & Hc & H). cbn in E. cbn [firstn map]. rewrite sumZ_cons.
    rewrite (IH _ _ j c H E). rewrite <- Hd, count_lt_cell by assumption. lia.
Qed.

(** The cells of the masked file hold the rows that were in the corresponding cells. *)
Definition new_cells (offsets counts : list Z) (cells : list cell) : list cell :=
  zip3 (fun o c e => mk_cell o c (cell_min e) (cell_max e)) offsets counts cells.

Lemma stored_in_new cells n rows :
  cells_tile 0 cells n -> StronglySorted Z.le rows -> Forall (fun i => 0 <= i < n) rows ->
  let counts := map (fun c => count_in c rows) cells in
  forall j c, nth_error cells j = Some c ->
  exists c', nth_error (new_cells (running_offsets 0 counts) counts cells) j = Some c' /\
    cell_min c' = cell_min c /\ cell_max c' = cell_max c /\
    forall p row, nth_error rows p = Some row -> (stored_in c' (Z.of_nat p) <-> stored_in c row).
Proof.
  intros Ht Hs Hb counts j c Hj.
  assert (Hlt : (j < length cells)%nat) by (apply nth_error_Some; congruence).
  assert (E1 : nth_error (running_offsets 0 counts) j = Some (0 + sumZ (firstn j counts))).
  { apply running_offsets_nth. unfold counts. now rewrite map_length. }
  assert (E2 : nth_error counts j = Some (count_in c rows)).
  { unfold counts. exact (map_nth_error (fun c => count_in c rows) _ _ Hj). }
  eexists. split; [exact (zip3_nth _ _ _ _ _ _ _ _ E1 E2 Hj)|]. split; [reflexivity|]. split; [reflexivity|].
  intros p row Hp. unfold stored_in. cbn [cell_offset cell_count].
  assert (E3 : 0 + sumZ (firstn j counts) = count_lt (cell_offset c) rows).
  { rewrite (tile_count_lt rows cells 0 n j c Ht Hj).
    assert (E0 : count_lt 0 rows = 0).
    { unfold count_lt. rewrite filter_none; [reflexivity|]. intros x Hx.
      apply (proj1 (Forall_forall _ _) Hb) in Hx. destruct (Z.ltb_spec x 0); [lia|reflexivity]. }
    rewrite E0. f_equal. unfold counts. now rewrite firstn_map. }
  rewrite E3. destruct (tile_nth cells 0 n j c Ht Hj) as (T1 & T2 & _).
  rewrite <- (count_lt_cell c rows) by lia.
  rewrite <- (count_lt_sorted _ rows p row Hs Hp).
  pose proof (count_lt_sorted (cell_offset c) rows p row Hs Hp). lia.
Qed.

(** * Groups *)

Definition reorder_extent (o : list nat) (e : option (list vec * list vec)) :=
  match e with Some (mn, mx) => Some (take_order mn o, take_order mx o) | None => None end.

(** What [write_subset] makes of a group. *)
Definition group_written {V} (f : sfile V) (st : mask_state) (g : nat) (gr gr' : group V) : Prop :=
  g_has gr' = g_has gr /\ g_extent gr' = reorder_extent (cell_sort_of f) (g_extent gr) /\
  if present gr
  then exists mk rs,
    nth_error (mm_keys (mask_meta_of f)) (key_of f g) = Some mk /\
    group_mask (Some st) (key_of f g) = Some (rs, total_rows rs) /\
    Forall (in_bounds (key_total mk)) rs /\ ordered_ranges rs /\ StronglySorted Z.le (indices_of rs) /\
    (forall i, In i (indices_of rs) <-> selected st (key_of f g) i) /\
    g_count gr' = total_rows rs /\
    g_counts gr' = map (fun c => count_in c (indices_of rs)) (key_cells mk) /\
    g_offsets gr' = running_offsets 0 (map (fun c => count_in c (indices_of rs)) (key_cells mk)) /\
    Forall2 (fun fd fd' => field_subset (indices_of rs) fd fd' /\ fd_layout fd' = Contiguous)
            (g_fields gr) (g_fields gr')
  else g_count gr' = 0 /\ g_fields gr' = [].

Lemma tile_in_bounds_empty rs : Forall (in_bounds 0) rs -> total_rows rs = 0.
Proof.
  intros H. rewrite <- zlen_indices_of.
  - destruct (indices_of rs) as [|i l] eqn:E; [reflexivity|]. exfalso.
    assert (Hi : In i (indices_of rs)) by (rewrite E; now left).
    pose proof (In_indices_in_bounds 0 rs i H Hi). lia.
  - eapply Forall_impl; [|exact H]. unfold in_bounds. cbn. intros; lia.
Qed.

Lemma write_group_ok {V} argsort (f : sfile V) st ranges g gr :
  is_argsort argsort -> wf_file f -> file_tiled f -> mask_of f st ->
  convert_masks_to_ranges (ms_masks st) = InRanges ranges ->
  nth_error (f_groups f) g = Some gr ->
  exists gr', write_group argsort (cell_sort_of f)
     (if present gr then nth_error (combine (mm_keys (mask_meta_of f)) ranges) (key_of f g) else None) gr = Ok gr' /\
     group_written f st g gr gr'.
Proof.
  intros Harg (Hw & Hne & _ & Hgs) Ht Hm Hc Hg.
  assert (Hgr : In gr (f_groups f)) by (eapply nth_error_In; exact Hg).
  apply (proj1 (Forall_forall _ _) Hgs) in Hgr as (Habs & Hfs).
  unfold group_written. destruct (present gr) eqn:Hp.
  - pose proof (group_key f g gr Hg Hp) as Hk.
    set (mk := mk_mask_key _ _) in Hk.
    assert (Htile : cells_tile 0 (key_cells mk) (key_total mk)).
    { unfold file_tiled in Ht. apply (proj1 (Forall_forall _ _) Ht). eapply nth_error_In. exact Hk. }
    destruct (group_mask_spec (mask_meta_of f) st (key_of f g) mk (unpack_wf _ Hw) Hm Hk Htile)
      as ([rs size] & E & Hin & Hsz & Hord & Hs & Hsel). cbn [fst snd] in *. subst size.
    assert (Er : nth_error ranges (key_of f g) = Some (rs, total_rows rs)).
    { unfold group_mask in E. now rewrite Hc in E. }
    rewrite (nth_error_combine _ _ _ _ _ Hk Er).
    assert (Hcells : key_cells mk <> []).
    { intros C. pose proof (group_cells_length f g gr Hw Hg Hp) as L.
      change (length (key_cells mk) = length (f_centres f)) in L. rewrite C in L.
      destruct (f_centres f); [congruence|discriminate]. }
    pose proof (masked_counts_spec (key_cells mk) (key_total mk) (inl rs) Htile Hcells Hin) as Ec.
    cbn [rows_of] in Ec.
    destruct (all_ok_Forall2 (write_field argsort (Some (rs, total_rows rs)))
                (fun fd fd' => field_subset (indices_of rs) fd fd' /\ fd_layout fd' = Contiguous)
                (g_fields gr)) as (fields & Ef & Hfields).
    { eapply Forall_impl; [|exact Hfs]. intros fd (H1 & H2 & H3).
      apply (write_field_ok argsort (g_count gr)); auto. }
    unfold write_group. cbn [fst snd option_map bind]. rewrite Ec, Ef. cbn [bind fst snd].
    assert (Hcount : (if g_count gr =? 0 then Ok 0 else Ok (total_rows rs)) = Ok (total_rows rs)).
    { destruct (Z.eqb_spec (g_count gr) 0) as [C|C]; [|reflexivity]. f_equal. symmetry.
      apply tile_in_bounds_empty. unfold mk in Hin. cbn [key_total] in Hin. now rewrite C in Hin. }
    rewrite Hcount. cbn [bind]. eexists. split; [reflexivity|].
    split; [reflexivity|]. split; [reflexivity|]. exists mk, rs. cbn. auto 15.
  - destruct (Habs eq_refl) as (H1 & H2). unfold write_group. cbn [bind option_map].
    rewrite H1, H2. cbn. eexists. split; [reflexivity|]. cbn. auto.
Qed.

Definition type_ok (t : option string) : Prop :=
  match t with None => True | Some t => exists t', subset_output_type t = Ok t' end.

Lemma all_ok_nth {A B} (f : nat -> A -> res B) (R : nat -> A -> B -> Prop) : forall (l : list A) s,
  (forall i a, nth_error l i = Some a -> exists b, f (s + i)%nat a = Ok b /\ R (s + i)%nat a b) ->
  exists r, all_ok (map (fun ia => f (fst ia) (snd ia)) (combine (seq s (length l)) l)) = Ok r /\
    length r = length l /\
    forall i a, nth_error l i = Some a -> exists b, nth_error r i = Some b /\ R (s + i)%nat a b.
Proof.
  induction l as [|a l IH]; intros s H.
  - exists []. split; [reflexivity|]. split; [reflexivity|]. intros [|i] a E; discriminate.
  - destruct (H 0%nat a eq_refl) as (b & E & Hb). rewrite Nat.add_0_r in E, Hb.
    destruct (IH (S s)) as (r & Er & El & Hr).
    { intros i x Hx. destruct (H (S i) x Hx) as (y & Ey & Hy). exists y. now rewrite Nat.add_succ_r in *. }
    exists (b :: r). cbn. rewrite E. cbn in Er. rewrite Er. split; [reflexivity|]. split; [now f_equal|].
    intros [|i] x Hx; cbn in Hx.
    + injection Hx as <-. exists b. rewrite Nat.add_0_r. auto.
    + destruct (Hr i x Hx) as (y & Ey & Hy). exists y. rewrite Nat.add_succ_r. auto.
Qed.

Lemma write_subset_ok {V} argsort (f : sfile V) st allow :
  is_argsort argsort -> wf_file f -> file_tiled f -> mask_of f st -> type_ok (f_type f) ->
  (ms_constrained st <> None \/ allow = true) ->
  exists f', write_subset argsort f st allow = Ok f' /\
    write_output_type (f_type f) = Ok (f_type f') /\
    f_centres f' = take_order (f_centres f) (cell_sort_of f) /\
    f_size f' = f_size f /\ f_pad f' = f_pad f /\ f_box f' = f_box f /\ f_shared f' = f_shared f /\
    length (f_groups f') = length (f_groups f) /\
    forall g gr, nth_error (f_groups f) g = Some gr ->
      exists gr', nth_error (f_groups f') g = Some gr' /\ group_written f st g gr gr'.
Proof.
  intros Harg Hw Ht Hm Hty Hal.
  destruct (convert_masks_to_ranges (ms_masks st)) as [ranges|] eqn:Ec;
    [|destruct (ms_masks st); discriminate].
  set (l := assign_keys (f_groups f) (combine (mm_keys (mask_meta_of f)) ranges)).
  destruct (all_ok_nth (fun _ mg => write_group argsort (cell_sort_of f) (fst mg) (snd mg))
              (fun g mg gr' => group_written f st g (snd mg) gr') l 0) as (r & Er & Lr & Hr).
  { intros g [m gr] E. assert (Eg : nth_error (f_groups f) g = Some gr).
    { destruct (nth_error (f_groups f) g) as [gr0|] eqn:E0.
      - unfold l in E. rewrite (assign_keys_nth _ _ _ _ E0) in E. congruence.
      - apply nth_error_None in E0. assert (g < length l)%nat by (apply nth_error_Some; congruence).
        unfold l in H. rewrite assign_keys_length in H. lia. }
    pose proof E as E'. unfold l in E'. rewrite (assign_keys_nth _ _ _ _ Eg) in E'. injection E' as <-.
    cbn [fst snd]. now apply write_group_ok with (ranges := ranges). }
  assert (Em : map (fun ia => write_group argsort (cell_sort_of f) (fst (snd ia)) (snd (snd ia)))
                   (combine (seq 0 (length l)) l)
               = map (fun mg => write_group argsort (cell_sort_of f) (fst mg) (snd mg)) l).
  { clear. generalize 0%nat. induction l as [|x l IH]; intros s; [reflexivity|]. cbn. now rewrite IH. }
  rewrite Em in Er.
  assert (Ety : exists t, write_output_type (f_type f) = Ok t).
  { unfold write_output_type. destruct (f_type f) as [t|]; [|eauto]. destruct Hty as (t' & ->). eauto. }
  destruct Ety as (t & Et).
  assert (E : write_subset argsort f st allow
    = Ok (mk_sfile t (take_order (f_centres f) (cell_sort_of f)) (f_size f) (f_pad f) (f_box f)
                   (f_shared f) r)).
  { unfold write_subset. rewrite Ec, Et. cbn [bind]. fold l. rewrite Er.
    destruct (ms_constrained st); [reflexivity|]. destruct Hal as [C| ->]; [congruence|reflexivity]. }
  eexists. split; [exact E|]. cbn. split; [assumption|]. do 5 (split; [reflexivity|]). split.
  - rewrite Lr. apply assign_keys_length.
  - intros g gr Hg. destruct (Hr g _ (assign_keys_nth _ (combine (mm_keys (mask_meta_of f)) ranges) _ _ Hg))
      as (gr' & H1 & H2). exists gr'. auto.
Qed.

(** * The new file *)

Section NewFile.
  Context {V : Type} (f f' : sfile V) (st : mask_state).
  Context (Hw : wf_file f) (Ht : file_tiled f).
  Context (Hcentres : f_centres f' = take_order (f_centres f) (cell_sort_of f))
          (Hsize : f_size f' = f_size f) (Hpad : f_pad f' = f_pad f) (Hbox : f_box f' = f_box f)
          (Hshared : f_shared f' = f_shared f)
          (Hlen : length (f_groups f') = length (f_groups f))
          (Hgroups : forall g gr, nth_error (f_groups f) g = Some gr ->
             exists gr', nth_error (f_groups f') g = Some gr' /\ group_written f st g gr gr').

  Lemma old_group g gr' : nth_error (f_groups f') g = Some gr' ->
    exists gr, nth_error (f_groups f) g = Some gr /\ group_written f st g gr gr'.
  Proof.
    intros H. destruct (nth_error (f_groups f) g) as [gr|] eqn:E.
    - destruct (Hgroups g gr E) as (gr2 & E2 & H2). rewrite H in E2. injection E2 as <-. eauto.
    - apply nth_error_None in E. assert (g < length (f_groups f'))%nat by (apply nth_error_Some; congruence). lia.
  Qed.

  Lemma present_old g gr gr' : nth_error (f_groups f) g = Some gr -> group_written f st g gr gr' ->
    present gr' = true -> present gr = true.
  Proof.
    intros Hg (Hh & _ & Hx) Hp. destruct (present gr) eqn:E; [reflexivity|].
    destruct Hx as (Hc & _). unfold present in *. rewrite Hh in Hp. destruct (g_has gr); [congruence|].
    rewrite Hc in Hp. discriminate.
  Qed.

  Lemma new_centres_length g gr : nth_error (f_groups f) g = Some gr -> present gr = true ->
    length (f_centres f') = length (f_centres f).
  Proof.
    intros Hg Hp. rewrite Hcentres. pose proof (cell_sort_perm f g gr (proj1 Hw) Hg Hp) as P.
    rewrite take_order_length; [|now apply valid_perm]. now rewrite (Permutation_length P), seq_length.
  Qed.

  (** Tables of the new file for a present group. *)
  Lemma new_tables g gr gr' : nth_error (f_groups f) g = Some gr -> group_written f st g gr gr' ->
    present gr = true ->
    length (g_offsets gr') = length (f_centres f) /\ length (g_counts gr') = length (f_centres f) /\
    StronglySorted Z.le (g_offsets gr') /\
    match g_extent gr' with
    | Some (mn, mx) => length mn = length (f_centres f) /\ length mx = length (f_centres f)
    | None => True
    end.
  Proof.
    intros Hg (Hh & He & Hx) Hp. rewrite Hp in Hx.
    destruct Hx as (mk & rs & Hk & _ & Hin & Hord & Hs & Hsel & Hcnt & Hcs & Hos & _).
    pose proof (group_key f g gr Hg Hp) as Hk'. rewrite Hk in Hk'. injection Hk' as ->.
    pose proof (group_cells_length f g gr (proj1 Hw) Hg Hp) as L. cbn [key_cells] in *.
    rewrite Hos, Hcs, running_offsets_length, map_length, L. split; [reflexivity|]. split; [reflexivity|]. split.
    - generalize 0. induction (take_order (raw_cells_of_key (raw_of_file f) (raw_of_group gr)) (cell_sort_of f))
        as [|c cells IH] in |- *; intros s; cbn [map running_offsets]; constructor; [apply IH|].
      assert (G : forall l t, Forall (fun x => 0 <= x) l -> s <= t -> Forall (Z.le s) (running_offsets t l)).
      { clear. induction l as [|x l IH]; intros t Hl Hst; cbn; constructor; [assumption|].
        inversion Hl; subst. apply IH; [assumption|lia]. }
      apply G.
      + apply Forall_map, Forall_forall. intros d _. apply zlen_nonneg.
      + pose proof (zlen_nonneg (filter (fun i => (cell_offset c <=? i) && (i <? cell_offset c + cell_count c)) (indices_of rs))).
        unfold count_in. lia.
    - rewrite He. destruct (group_lengths f g gr (proj1 Hw) Hg Hp) as (_ & _ & Lx).
      cbn [raw_of_group rk_extent] in Lx. pose proof (cell_sort_perm f g gr (proj1 Hw) Hg Hp) as P.
      destruct (g_extent gr) as [[mn mx]|]; [|exact I]. cbn. destruct Lx as [L1 L2].
      cbn [raw_of_file rc_centres] in L1, L2.
      rewrite !take_order_length by (rewrite ?L1, ?L2; now apply valid_perm).
      rewrite (Permutation_length P), seq_length. auto.
  Qed.

  Lemma new_cell_sort : cell_sort_of f' = seq 0 (length (f_centres f)) \/ filter present (f_groups f') = [].
  Proof.
    unfold cell_sort_of. cbn [raw_of_file rc_keys].
    destruct (filter present (f_groups f')) as [|gr' rest] eqn:E; [now right|]. left. cbn [map].
    assert (H : In gr' (filter present (f_groups f'))) by (rewrite E; now left).
    apply filter_In in H as [H Hp]. apply In_nth_error in H as [g H].
    destruct (old_group g gr' H) as (gr & Hg & Hgw).
    pose proof (present_old g gr gr' Hg Hgw Hp) as Hp0.
    destruct (new_tables g gr gr' Hg Hgw Hp0) as (L & _ & S & _). cbn [raw_of_group rk_offsets].
    rewrite stable_argsort_sorted by assumption. now rewrite L.
  Qed.

  (** The cells of a group of the new file. *)
  Lemma new_key g gr gr' mk rs : nth_error (f_groups f) g = Some gr -> nth_error (f_groups f') g = Some gr' ->
    group_written f st g gr gr' -> present gr' = true ->
    nth_error (mm_keys (mask_meta_of f)) (key_of f g) = Some mk ->
    group_mask (Some st) (key_of f g) = Some (rs, total_rows rs) ->
    let counts := map (fun c => count_in c (indices_of rs)) (key_cells mk) in
    nth_error (mm_keys (mask_meta_of f')) (key_of f' g)
    = Some (mk_mask_key (new_cells (running_offsets 0 counts) counts (key_cells mk)) (total_rows rs)).
  Proof.
    intros Hg Hg' Hgw Hp' Hk Hrs counts.
    pose proof (present_old g gr gr' Hg Hgw Hp') as Hp.
    pose proof (new_tables g gr gr' Hg Hgw Hp) as (L1 & L2 & _ & L3).
    destruct Hgw as (_ & He & Hx). rewrite Hp in Hx.
    destruct Hx as (mk2 & rs2 & Hk2 & Hrs2 & _ & _ & _ & _ & Hcnt & Hcs & Hos & _).
    rewrite Hk in Hk2. injection Hk2 as <-. rewrite Hrs in Hrs2. injection Hrs2 as <-.
    rewrite (group_key f' g gr' Hg' Hp'), Hcnt. f_equal. f_equal.
    destruct new_cell_sort as [Es|C].
    2:{ exfalso. apply (in_nil (a := gr')). rewrite <- C. apply filter_In.
        split; [eapply nth_error_In; exact Hg'|assumption]. }
    rewrite Es.
    pose proof (cell_sort_perm f g gr (proj1 Hw) Hg Hp) as P.
    pose proof (group_lengths f g gr (proj1 Hw) Hg Hp) as Lr.
    pose proof (group_key f g gr Hg Hp) as Hk'. rewrite Hk in Hk'. injection Hk' as Hmk.
    pose proof (cell_extents_length _ _ Lr) as Le. destruct Lr as (Lr1 & Lr2 & Lr3).
    cbn [raw_of_group rk_offsets rk_counts rk_extent raw_of_file rc_centres] in Lr1, Lr2, Lr3.
    change (rc_centres (raw_of_file f)) with (f_centres f) in Le.
    (* extents *)
    assert (Ee : cell_extents (raw_of_file f') (raw_of_group gr')
                 = take_order (cell_extents (raw_of_file f) (raw_of_group gr)) (cell_sort_of f)).
    { unfold cell_extents. cbn [raw_of_group rk_extent raw_of_file rc_centres rc_size rc_pad].
      rewrite He, Hcentres, Hsize, Hpad. destruct (g_extent gr) as [[mn mx]|]; cbn [reorder_extent].
      - symmetry. apply take_order_zip3; [apply Lr3|apply Lr3|]. now apply valid_perm.
      - symmetry. apply take_order_map. }
    assert (Er : raw_cells_of_key (raw_of_file f') (raw_of_group gr')
                 = new_cells (running_offsets 0 counts) counts (key_cells mk)).
    { unfold raw_cells_of_key. rewrite Ee. cbn [raw_of_group rk_offsets rk_counts].
      rewrite Hos, Hcs. fold counts. unfold new_cells. rewrite Hmk. cbn [key_cells].
      unfold raw_cells_of_key. cbn [raw_of_group rk_offsets rk_counts].
      rewrite take_order_zip3.
      2:{ now rewrite Lr2. }
      2:{ now rewrite Le, Lr1. }
      2:{ rewrite Lr1. now apply valid_perm. }
      assert (G : forall (os cs : list Z) (o1 c1 : list Z) (es : list (vec * vec)),
        length o1 = length es -> length c1 = length es ->
        zip3 (fun o c e => mk_cell o c (fst e) (snd e)) os cs es
        = zip3 (fun o c e => mk_cell o c (cell_min e) (cell_max e)) os cs
               (zip3 (fun o c e => mk_cell o c (fst e) (snd e)) o1 c1 es)).
      { clear. intros os cs o1 c1 es. revert os cs o1 c1.
        induction es as [|e es IH]; intros os cs o1 c1 H1 H2.
        - destruct o1; [|discriminate]. destruct c1; [|discriminate].
          destruct os, cs; reflexivity.
        - destruct o1 as [|o o1]; [discriminate|]. destruct c1 as [|c c1]; [discriminate|].
          rewrite zip3_cons. destruct os as [|x os]; [reflexivity|]. destruct cs as [|y cs]; [reflexivity|].
          rewrite !zip3_cons. cbn [cell_min cell_max]. f_equal. apply IH; cbn in *; lia. }
      apply G.
      - rewrite !take_order_length; [reflexivity| |].
        + rewrite Le. now apply valid_perm.
        + rewrite Lr1. now apply valid_perm.
      - rewrite !take_order_length; [reflexivity| |].
        + rewrite Le. now apply valid_perm.
        + rewrite Lr2. now apply valid_perm. }
    rewrite Er.
    assert (Ln : length (new_cells (running_offsets 0 counts) counts (key_cells mk)) = length (f_centres f)).
    { unfold new_cells. rewrite zip3_length.
      - rewrite running_offsets_length. unfold counts. rewrite map_length, Hmk. cbn [key_cells].
        apply (group_cells_length f g gr (proj1 Hw) Hg Hp).
      - now rewrite running_offsets_length.
      - rewrite running_offsets_length. unfold counts. now rewrite map_length. }
    rewrite <- Ln. apply take_order_id.
  Qed.

  Lemma new_wf_raw : wf_raw (raw_of_file f').
  Proof.
    pose proof Hw as ((B1 & B2 & B3 & B4 & _) & _ & Hone & _).
    cbn [raw_of_file rc_box rc_size rc_pad rc_homogeneous rc_keys] in *.
    unfold wf_raw. cbn [raw_of_file rc_box rc_size rc_pad rc_homogeneous rc_keys rc_centres].
    rewrite Hbox, Hsize, Hpad, Hshared. split; [assumption|]. split; [assumption|]. split; [assumption|].
    split.
    - intros Hs. destruct (Hone Hs) as (gr & Egs & Hh).
      destruct (Hgroups 0%nat gr) as (gr' & E' & Hgw); [now rewrite Egs|].
      rewrite Egs in Hlen. destruct (f_groups f') as [|x [|y l]]; try discriminate.
      cbn in E'. injection E' as ->. destruct Hgw as (Hh' & _). cbn. unfold present. rewrite Hh', Hh. reflexivity.
    - apply Forall_map, Forall_forall. intros gr' Hin. apply filter_In in Hin as [Hin Hp'].
      apply In_nth_error in Hin as [g Hg']. destruct (old_group g gr' Hg') as (gr & Hg & Hgw).
      pose proof (present_old g gr gr' Hg Hgw Hp') as Hp.
      rewrite (new_centres_length g gr Hg Hp).
      destruct (new_tables g gr gr' Hg Hgw Hp) as (L1 & L2 & _ & L3).
      cbn [raw_of_group rk_offsets rk_counts rk_extent rk_total].
      split; [assumption|]. split; [assumption|]. split; [assumption|].
      destruct Hgw as (_ & _ & Hx). rewrite Hp in Hx.
      destruct Hx as (mk & rs & Hk & _ & Hin & _ & _ & _ & Hcnt & Hcs & Hos & _).
      assert (Htile : cells_tile 0 (key_cells mk) (key_total mk)).
      { unfold file_tiled in Ht. apply (proj1 (Forall_forall _ _) Ht). eapply nth_error_In. exact Hk. }
      assert (Hle : Forall (fun r : Z * Z => fst r <= snd r) rs).
      { eapply Forall_impl; [|exact Hin]. unfold in_bounds. cbn. intros; lia. }
      rewrite Hcnt, <- (zlen_indices_of rs Hle). split; [apply zlen_nonneg|].
      rewrite Hos, Hcs.
      pose proof (tile_count_total (key_cells mk) (key_total mk) (indices_of rs) Htile) as T.
      rewrite <- T by (apply (mask_for_rows (key_total mk) (inl rs)); exact Hin).
      change 0 with (0 + 0) at 3. rewrite <- (Z.add_0_l (sumZ _)).
      assert (G : forall l s, 0 <= s -> Forall (fun x => 0 <= x) l ->
        Forall (fun oc => 0 <= fst oc /\ 0 <= snd oc /\ fst oc + snd oc <= s + sumZ l)
               (combine (running_offsets s l) l)).
      { clear. induction l as [|x l IH]; intros s Hs Hl; [constructor|]. inversion Hl; subst.
        cbn [running_offsets combine]. rewrite sumZ_cons.
        assert (0 <= sumZ l) by (clear - H2; induction H2; [cbn; lia|rewrite sumZ_cons; lia]).
        constructor; [cbn; lia|]. rewrite Z.add_assoc. apply IH; [lia|assumption]. }
      apply G; [lia|]. apply Forall_map, Forall_forall. intros d _. apply zlen_nonneg.
  Qed.

  Lemma new_tiled : file_tiled f'.
  Proof.
    apply Forall_forall. intros mk' Hin. apply In_nth_error in Hin as [k Hk'].
    destruct (key_group f' k mk' Hk') as (g & gr' & Hg' & Hp' & ->).
    destruct (old_group g gr' Hg') as (gr & Hg & Hgw).
    pose proof (present_old g gr gr' Hg Hgw Hp') as Hp.
    pose proof Hgw as (_ & _ & Hx). rewrite Hp in Hx.
    destruct Hx as (mk & rs & Hk & Hrs & Hin & _).
    pose proof (new_key g gr gr' mk rs Hg Hg' Hgw Hp' Hk Hrs) as E. cbv zeta in E.
    rewrite Hk' in E. injection E as ->. cbn [key_cells key_total].
    assert (Htile : cells_tile 0 (key_cells mk) (key_total mk)).
    { unfold file_tiled in Ht. apply (proj1 (Forall_forall _ _) Ht). eapply nth_error_In. exact Hk. }
    assert (Hle : Forall (fun r : Z * Z => fst r <= snd r) rs).
    { eapply Forall_impl; [|exact Hin]. unfold in_bounds. cbn. intros; lia. }
    rewrite <- (zlen_indices_of rs Hle).
    rewrite <- (tile_count_total (key_cells mk) (key_total mk) (indices_of rs) Htile)
      by (apply (mask_for_rows (key_total mk) (inl rs)); exact Hin).
    set (l := key_cells mk). clear. unfold new_cells. rewrite <- (Z.add_0_l (sumZ _)). generalize 0.
    induction l as [|c l IH]; intros s; [cbn; lia|].
    cbn [map running_offsets]. rewrite zip3_cons. cbn [cells_tile cell_offset cell_count].
    split; [reflexivity|]. split; [apply zlen_nonneg|]. rewrite sumZ_cons, Z.add_assoc. apply IH.
  Qed.
End NewFile.

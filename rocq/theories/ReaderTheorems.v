(** Properties C20, C21 (and the reading half of C16): field access. *)
From Coq Require Import List ZArith QArith Lia Bool Permutation Sorted.
From Verif Require Import Base BaseLemmas RangesModel RangesSpec RangesProofs SortModel SortProofs
     MaskModel MaskSpec MaskProofs MaskHistProofs MaskCountProofs MaskTheorems ReaderModel ReaderSpec ReaderProofs.
Import ListNotations.
Open Scope Z_scope.

(** * C20 *)

(** One list of rows serves every field, named column and storage layout.  Remote datasets
    need a selection without repetitions that is not empty. *)
Theorem C20_fields_aligned :
  forall (V : Type) (argsort : list Z -> list nat) (mm : mask_meta) (st : mask_state)
         (k : nat) (mk : mask_key),
  is_argsort argsort -> wf_meta mm -> reachable mm st ->
  nth_error (mm_keys mm) k = Some mk -> cells_tile 0 (key_cells mk) (key_total mk) ->
  exists rows,
    (forall i, In i rows <-> selected st k i) /\ StronglySorted Z.le rows /\
    forall (f : field V) (column : option nat),
      field_of (key_total mk) f -> column_ok f column ->
      (fd_layout f = Remote -> NoDup rows /\ rows <> []) ->
      exists out, read_field argsort (group_mask (Some st) k) column f = Ok out /\
                  shows_rows f column rows out.
Proof.
  intros V argsort mm st k mk Harg Hw Hr Hk Ht.
  destruct (group_mask_spec mm st k mk Hw Hr Hk Ht) as ([rs size] & Egm & Hin & Hsz & Hord & Hs & Hsel).
  cbn [fst snd] in *. exists (indices_of rs). split; [assumption|]. split; [assumption|].
  intros f column Hf Hc Hrem. rewrite Egm, Hsz.
  pose proof Hf as (Hlen & _). apply read_field_masked; auto.
  - now rewrite Hlen.
  - now rewrite Hlen.
  - intros E. destruct (Hrem E) as [H1 H2]. split; [assumption|]. intros ->. now apply H2.
Qed.

Theorem C20_unmasked_field :
  forall (V : Type) (argsort : list Z -> list nat) (n : Z) (f : field V) (column : option nat),
  field_of n f -> column_ok f column ->
  exists out, read_field argsort None column f = Ok out /\ shows_rows f column (zrange 0 n) out.
Proof.
  intros V argsort n f column Hf Hc. pose proof Hf as (Hlen & _).
  destruct (read_field_unmasked argsort f column) as (out & E & H); [now rewrite Hlen|assumption|].
  exists out. rewrite <- Hlen. auto.
Qed.

(** The columns of one row stay together: with the same mask, a named column shows the entry
    of the full row. *)
Theorem C20_columns_of_rows :
  forall (V : Type) (f : field V) (j : nat) (idx : list Z) (full col : list (option (list V))) (i : nat)
         (row c : list V),
  fd_2d f = true ->
  shows_rows f None idx full -> shows_rows f (Some j) idx col ->
  nth_error full i = Some (Some row) -> nth_error col i = Some (Some c) ->
  exists v, nth_error row j = Some v /\ c = [v].
Proof.
  intros V f j idx full col i row c H2d Hf Hc E1 E2.
  destruct (Forall2_nth_r _ _ _ _ _ Hf E1) as (x & Ex & _ & r & e & Hr & He & Hent).
  destruct (Forall2_nth_r _ _ _ _ _ Hc E2) as (y & Ey & _ & r' & e' & Hr' & He' & Hent').
  rewrite Ex in Ey. injection Ey as <-. rewrite Hr in Hr'. injection Hr' as <-.
  injection He as <-. injection He' as <-. cbn in Hent, Hent'. rewrite H2d in Hent'. subst r. assumption.
Qed.

(** Tiling is needed.  Two MPI ranks; the last cell of rank 0 has no gas, so that its gas
    offset equals that of the first cell of rank 1, which precedes it in the Cells table.
    Sorting by the gas offsets then leaves the dark-matter cells out of order: a chunked
    dark-matter field shows other rows than a contiguous one. *)
Definition mpi_extent (x : Q) : vec * vec := (v3 x 0 0, v3 (x + 1) 4 4).

Definition mpi_raw : raw_cells :=
  mk_raw_cells [v3 (3#2) 2 2; v3 (1#2) 2 2; v3 (5#2) 2 2; v3 (7#2) 2 2] (v3 1 4 4) 0 (v3 4 4 4) false
    [ mk_raw_key [1; 0; 1; 3] [2; 1; 0; 1] None 4;
      mk_raw_key [8; 0; 4; 9] [1; 4; 4; 3] None 12 ].

Definition mpi_mask : mask_state :=
  fst (constrain_spatial (unpack_cell_metadata mpi_raw) [Some [5#4; 15#4]; None; None] false
                         (new_mask (unpack_cell_metadata mpi_raw))).

Definition mpi_field (lay : layout) : field Z := mk_field lay false 1 (map (fun x => [x]) (zrange 0 12)).

Theorem C20_misaligned_fields_refuted :
  exists (raw : raw_cells) (st : mask_state) (mk : mask_key) (contiguous chunked : field Z) out1 out2,
    let mm := unpack_cell_metadata raw in
    wf_raw raw /\ reachable mm st /\ ms_constrained st = Some CSpatial /\
    nth_error (mm_keys mm) 1 = Some mk /\ cells_partition mk /\
    field_of (key_total mk) contiguous /\ field_of (key_total mk) chunked /\
    fd_rows contiguous = fd_rows chunked /\
    read_field stable_argsort (group_mask (Some st) 1) None contiguous = Ok out1 /\
    read_field stable_argsort (group_mask (Some st) 1) None chunked = Ok out2 /\
    out1 <> out2.
Proof.
  exists mpi_raw, mpi_mask. eexists. exists (mpi_field Contiguous), (mpi_field (Chunked 4)). do 2 eexists.
  cbv zeta. split.
  { split; [intros []; reflexivity|]. split; [intros []; reflexivity|]. split; [easy|].
    split; [discriminate|]. repeat constructor; cbn; lia. }
  split.
  { exists [OpSpatial [Some [5#4; 15#4]; None; None] false]. split; [repeat constructor|reflexivity]. }
  split; [reflexivity|]. split; [reflexivity|]. split.
  { split; [split; [cbn; lia|repeat constructor; cbn; lia]|]. split.
    - repeat constructor; intros i (H1 & H2); unfold stored_in in *; cbn in *; lia.
    - intros i Hi. cbn in Hi. unfold stored_in. cbn -[Z.add].
      destruct (Z_lt_le_dec i 4); [eexists; split; [left; reflexivity|cbn; lia]|].
      destruct (Z_lt_le_dec i 8); [eexists; split; [right; right; left; reflexivity|cbn; lia]|].
      destruct (Z_lt_le_dec i 9); [eexists; split; [right; left; reflexivity|cbn; lia]|].
      eexists; split; [right; right; right; left; reflexivity|cbn; lia]. }
  split; [split; [reflexivity|split; discriminate]|].
  split; [split; [reflexivity|split; [discriminate|intros c H; injection H as <-; lia]]|].
  split; [reflexivity|]. split; [vm_compute; reflexivity|]. split; [vm_compute; reflexivity|].
  discriminate.
Qed.

(** A spatial mask that selects no cell cannot be used on a remote dataset, although the
    same dataset in a file gives an empty array. *)
Theorem C20_remote_empty_selection_refuted :
  exists (mm : mask_meta) (st : mask_state) (f g : field Z),
    wf_meta mm /\ reachable mm st /\ fd_rows f = fd_rows g /\
    read_field stable_argsort (group_mask (Some st) 0) None f = Ok [] /\
    read_field stable_argsort (group_mask (Some st) 0) None g = Err IndexError.
Proof.
  set (mm := mk_mask_meta false (v3 2 2 2) [ mk_mask_key [ex_left 0 3] 3 ]).
  exists mm, (fst (constrain_spatial mm ex_r2 false (new_mask mm))).
  exists (mk_field Contiguous false 1 [[1]; [2]; [3]]), (mk_field Remote false 1 [[1]; [2]; [3]]).
  split; [ex_wf|]. split.
  { exists [OpSpatial ex_r2 false]. split; [repeat constructor|reflexivity]. }
  split; [reflexivity|]. split; reflexivity.
Qed.

Example C20_example :
  let st := fst (mask_run ex_mm [OpSpatial ex_r2 false; OpProperty 0 (Some [1; 2; 3; 4; 5]%Q) 0 4]
                          (new_mask ex_mm)) in
  let f lay := mk_field lay true 2 [[0; 10]; [1; 11]; [2; 12]; [3; 13]; [4; 14]] in
  read_field stable_argsort (group_mask (Some st) 0) None (f (Chunked 2)) = Ok [Some [3; 13]] /\
  read_field stable_argsort (group_mask (Some st) 0) (Some 1%nat) (f Remote) = Ok [Some [13]] /\
  reachable ex_mm st /\ cells_tile 0 [ex_left 0 3; ex_right 3 2] 5 /\
  field_of 5 (f (Chunked 2)) /\ column_ok (f Remote) (Some 1%nat).
Proof.
  cbv zeta. split; [reflexivity|]. split; [reflexivity|]. split.
  { eexists. split; [|reflexivity]. repeat constructor. intros mk H. cbn in H. now injection H as <-. }
  split; [cbn; lia|]. split.
  - split; [reflexivity|]. split; [repeat constructor|]. intros c H. injection H as <-. lia.
  - cbn. lia.
Qed.

(** * C16, reading *)

Theorem C16_read_indices :
  forall (V : Type) (argsort : list Z -> list nat) (mm : mask_meta) (mk : mask_key) (indices : list Z),
  is_argsort argsort -> wf_meta mm -> mm_homogeneous mm = true ->
  nth_error (mm_keys mm) 0 = Some mk -> cells_tile 0 (key_cells mk) (key_total mk) ->
  Forall (fun i => 0 <= i < key_total mk) indices ->
  exists st rows, constrain_indices mm indices (new_mask mm) = (st, None) /\
    Permutation rows indices /\ StronglySorted Z.le rows /\
    forall (f : field V) (column : option nat),
      field_of (key_total mk) f -> column_ok f column ->
      (fd_layout f = Remote -> NoDup indices) ->
      exists out, read_field argsort (group_mask (Some st) 0) column f = Ok out /\
                  shows_rows f column rows out.
Proof.
  intros V argsort mm mk indices Harg Hw Hhom Hk Ht Hi.
  assert (Hok : ok_op mm (OpIndices indices)).
  { destruct Hw as (_ & _ & Hh). specialize (Hh Hhom).
    destruct (mm_keys mm) as [|mk0 [|? ?]] eqn:E; try discriminate. cbn in Hk. injection Hk as ->.
    unfold ok_op. rewrite E. constructor; [assumption|constructor]. }
  destruct (C16_indices_range_form mm indices Hw Hhom Hok) as (st & E & Hp & Hs & Hsz & Hrf).
  assert (Hr : reachable mm st).
  { exists [OpIndices indices]. split; [now constructor|]. cbn [mask_run mask_step]. now rewrite E. }
  destruct (group_mask_spec mm st 0 mk Hw Hr Hk Ht) as ([rs size] & Egm & Hin & Hsize & Hord & _ & _).
  cbn [fst snd] in *.
  assert (Erows : masked_rows (ms_masks st) 0 = indices_of rs).
  { unfold group_mask in Egm. destruct (ms_masks st) as [l|l]; [|destruct Hrf]. cbn in *. now rewrite Egm. }
  rewrite Erows in Hp, Hs. exists st, (indices_of rs). split; [assumption|]. split; [assumption|].
  split; [assumption|]. intros f column Hf Hc Hrem. rewrite Egm, Hsize.
  pose proof Hf as (Hlen & _). apply read_field_masked; auto.
  - now rewrite Hlen.
  - now rewrite Hlen.
  - intros El. split; [eapply Permutation_NoDup; [symmetry; exact Hp|auto]|].
    intros ->. unfold constrain_indices, constrain_indices_body in E.
    cbn [new_mask ms_constrained ms_masks] in E. rewrite Hhom in E.
    cbn [negb with_label] in E. injection E as <-. cbn [group_mask ms_masks convert_masks_to_ranges] in Egm.
    rewrite nth_error_map in Egm. destruct (nth_error _ 0) in Egm; [|discriminate]. injection Egm as Er _.
    destruct (if is_sorted indices then indices else np_sort indices) as [|x l]; [discriminate|].
    cbn in Er. destruct (ranges_loop_head l x x) as (e & rest & E' & _). congruence.
Qed.

Example C16_read_example :
  let st := fst (constrain_indices ex_soap [4; 1; 0; 1] (new_mask ex_soap)) in
  read_field stable_argsort (group_mask (Some st) 0) None
             (mk_field (Chunked 2) false 1 [[10]; [11]; [12]; [13]; [14]])
  = Ok [Some [10]; Some [11]; Some [11]; Some [14]].
Proof. reflexivity. Qed.

(** * C21 *)

(** Every operation of every history shows what the operations on that attribute alone
    determine (the cache and the other attributes are invisible). *)
Theorem C21_lazy_loading_is_transparent :
  forall (A : Type) (read : slot_reader A) (ops : list (ds_op A)) (i : nat) (op : ds_op A),
  nth_error ops i = Some op ->
  nth_error (snd (ds_run read ops ds_init)) i = Some (expected_output read (firstn i ops) op).
Proof. intros A read ops i op H. exact (proj2 (ds_run_spec read ops ds_init [] (cached_init read)) i op H). Qed.

(** A field that can be read is read at most once between two operations that drop it. *)
Theorem C21_read_at_most_once :
  forall (A : Type) (read : slot_reader A) (ops : list (ds_op A)) (s : slot) (v : A),
  read s = Ok (Some v) ->
  (occurrences s (ds_reads (fst (ds_run read ops ds_init))) <= 1 + length (filter (drops s) ops))%nat.
Proof.
  intros A read ops s v H. pose proof (reads_run read s v ops ds_init H) as R. cbn in R. lia.
Qed.

(** Nothing is read before it is accessed. *)
Theorem C21_only_accessed_fields_are_read :
  forall (A : Type) (read : slot_reader A) (ops : list (ds_op A)) (s : slot),
  In s (ds_reads (fst (ds_run read ops ds_init))) ->
  In (DGet s) ops \/ exists f, In (DInPlace s f) ops.
Proof.
  intros A read ops s.
  assert (G : forall ops st, In s (ds_reads (fst (ds_run read ops st))) ->
            In s (ds_reads st) \/ In (DGet s) ops \/ exists f, In (DInPlace s f) ops).
  { clear ops. induction ops as [|op ops IH]; intros st H; [now left|].
    rewrite ds_run_cons in H. cbn [fst] in H. apply IH in H as [H|[H|[f H]]].
    - assert (R : forall t, In s (ds_reads (fst (ds_get read st t))) -> In s (ds_reads st) \/ t = s).
      { intros t. unfold ds_get. destruct (ds_cache st t); [now left|].
        destruct (read t) as [[w|]|e]; cbn; intros [<-|Hin]; auto. }
      destruct op as [t|t w|t|t f]; cbn [ds_step] in H.
      + apply R in H as [H| ->]; [now left|right; left; now left].
      + now left.
      + now left.
      + specialize (R t). destruct (ds_get read st t) as [st' [[w|]|e]]; cbn [fst ds_reads] in *;
          (apply R in H as [H| ->]; [now left|right; right; exists f; now left]).
    - right; left; now right.
    - right; right; exists f; now right. }
  intros H. apply G in H as [H|H]; [destruct H|exact H].
Qed.

Example C21_example :
  let read : slot_reader Z := fun s => if Nat.eqb (fst s) 9 then Ok None else Ok (Some (Z.of_nat (fst s))) in
  let a := (1%nat, None) in let b := (2%nat, Some 0%nat) in
  snd (ds_run read [DGet a; DInPlace a (Z.mul 10); DGet a; DGet b; DSet b (Some 7); DGet b; DDel b;
                    DGet b; DGet a; DGet (9%nat, None)] ds_init)
  = [Ok (Some 1); Ok None; Ok (Some 10); Ok (Some 2); Ok None; Ok (Some 7); Ok None; Ok (Some 2);
     Ok (Some 10); Ok None] /\
  occurrences b (ds_reads (fst (ds_run read [DGet b; DGet b; DDel b; DGet b] ds_init))) = 2%nat.
Proof. split; reflexivity. Qed.

(** The attributes of a particle type: whatever was done to other attributes, and however often it was looked
    at before, an attribute that was not changed shows the rows that the mask selects, its dataset being
    missing shows None, and a column that is not there is an error. *)
Definition only_looked_at {A} (s : slot) (op : ds_op A) : Prop :=
  match op with DGet _ => True | DSet t _ | DDel t | DInPlace t _ => t <> s end.

Lemma looked_at_value {A} (content : slot -> res (option A)) s : forall history,
  Forall (only_looked_at s) history -> current_value content history s = content s.
Proof.
  intros history H. unfold current_value. induction H as [|op history Hop H IH]; [reflexivity|].
  cbn [filter]. destruct (slot_eqb (slot_of op) s) eqn:E; [|exact IH].
  apply slot_eqb_iff in E. destruct op; cbn [slot_of only_looked_at] in *; try contradiction.
  cbn [fold_left value_after]. exact IH.
Qed.

Theorem C21_attributes_of_a_type :
  forall (V : Type) (argsort : list Z -> list nat) (mm : mask_meta) (st : mask_state) (k : nat) (mk : mask_key)
         (fields : list (field V)),
  is_argsort argsort -> wf_meta mm -> reachable mm st ->
  nth_error (mm_keys mm) k = Some mk -> cells_tile 0 (key_cells mk) (key_total mk) ->
  exists rows,
    (forall i, In i rows <-> selected st k i) /\ StronglySorted Z.le rows /\
    forall ops i s, nth_error ops i = Some (DGet s) -> Forall (only_looked_at s) (firstn i ops) ->
    let seen := nth_error (snd (ds_run (group_reader argsort (group_mask (Some st) k) fields) ops ds_init)) i in
    (nth_error fields (fst s) = None -> seen = Some (Ok None)) /\
    (forall f, nth_error fields (fst s) = Some f -> ~ column_ok f (snd s) -> seen = Some (Err IndexError)) /\
    (forall f, nth_error fields (fst s) = Some f -> field_of (key_total mk) f -> column_ok f (snd s) ->
       (fd_layout f = Remote -> NoDup rows /\ rows <> []) ->
       exists out, seen = Some (Ok (Some out)) /\ shows_rows f (snd s) rows out).
Proof.
  intros V argsort mm st k mk fields Harg Hw Hr Hk Ht.
  destruct (C20_fields_aligned V argsort mm st k mk Harg Hw Hr Hk Ht) as (rows & Hin & Hs & Hread).
  exists rows. split; [assumption|]. split; [assumption|]. intros ops i s Ho Hl seen.
  assert (E : seen = Some (group_reader argsort (group_mask (Some st) k) fields s)).
  { unfold seen. rewrite (C21_lazy_loading_is_transparent _ _ _ _ _ Ho). cbn [expected_output].
    now rewrite looked_at_value. }
  rewrite E. clear E seen. unfold group_reader. split; [|split].
  - now intros ->.
  - intros f -> Hc. unfold read_field. destruct (snd s) as [j|]; [|now exfalso; apply Hc].
    cbn [column_ok] in Hc. destruct (fd_2d f); [|exfalso; apply Hc; discriminate].
    cbn [andb]. replace (fd_width f <=? Z.of_nat j) with true; [reflexivity|].
    symmetry. apply Z.leb_le. destruct (Z_le_gt_dec (fd_width f) (Z.of_nat j)); [assumption|].
    exfalso. apply Hc. intros _. lia.
  - intros f -> Hf Hc Hrem. destruct (Hread f (snd s) Hf Hc Hrem) as (out & -> & Hout). eauto.
Qed.

(** Without a mask every row of the file is shown. *)
Theorem C21_attributes_without_mask :
  forall (V : Type) (argsort : list Z -> list nat) (n : Z) (fields : list (field V)) ops i s f,
  nth_error ops i = Some (DGet s) -> Forall (only_looked_at s) (firstn i ops) ->
  nth_error fields (fst s) = Some f -> field_of n f -> column_ok f (snd s) ->
  exists out,
    nth_error (snd (ds_run (group_reader argsort None fields) ops ds_init)) i = Some (Ok (Some out)) /\
    shows_rows f (snd s) (zrange 0 n) out.
Proof.
  intros V argsort n fields ops i s f Ho Hl Hf Hn Hc.
  destruct (C20_unmasked_field V argsort n f (snd s) Hn Hc) as (out & E & H). exists out. split; [|assumption].
  rewrite (C21_lazy_loading_is_transparent _ _ _ _ _ Ho). cbn [expected_output].
  rewrite looked_at_value by assumption. unfold group_reader. now rewrite Hf, E.
Qed.

(** A mask that keeps the fourth of five particles; the second field is changed, the first is not. *)
Example C21_type_example :
  let st := fst (mask_run ex_mm [OpSpatial ex_r2 false; OpProperty 0 (Some [1; 2; 3; 4; 5]%Q) 0 4]
                          (new_mask ex_mm)) in
  let f lay := mk_field lay true 2 [[0; 10]; [1; 11]; [2; 12]; [3; 13]; [4; 14]] in
  let read := group_reader stable_argsort (group_mask (Some st) 0) [f (Chunked 2); f Contiguous] in
  snd (ds_run read [DGet (0, None); DSet (1, None) (Some []); DGet (0, None); DGet (1, None); DGet (0, Some 1);
                    DGet (2, None); DGet (0, Some 2); DDel (1, None); DGet (1, None)]%nat ds_init)
  = [Ok (Some [Some [3; 13]]); Ok None; Ok (Some [Some [3; 13]]); Ok (Some []); Ok (Some [Some [13]]);
     Ok None; Err IndexError; Ok None; Ok (Some [Some [3; 13]])].
Proof. reflexivity. Qed.

Print Assumptions C20_fields_aligned.
Print Assumptions C20_unmasked_field.
Print Assumptions C20_columns_of_rows.
Print Assumptions C20_misaligned_fields_refuted.
Print Assumptions C20_remote_empty_selection_refuted.
Print Assumptions C16_read_indices.
Print Assumptions C21_lazy_loading_is_transparent.
Print Assumptions C21_read_at_most_once.
Print Assumptions C21_only_accessed_fields_are_read.
Print Assumptions C21_attributes_of_a_type.
Print Assumptions C21_attributes_without_mask.

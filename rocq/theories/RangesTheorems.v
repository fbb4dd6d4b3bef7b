(** Properties C01-C06: reading row ranges.  See properties.jsonl and RangesSpec.v. *)
From Coq Require Import List ZArith Lia Bool Permutation Sorted.
From Verif Require Import Base BaseLemmas RangesModel RangesSpec RangesProofs ChunkProofs ChunkRangeProofs
     OrderedSlicesProofs SortModel SortProofs.
Import ListNotations.
Open Scope Z_scope.

(** * C01 *)

Theorem C01_ranges_expand_back : forall indices : list Z,
  expand_ranges (ranges_from_array indices) = Ok indices.
Proof. exact ranges_roundtrip. Qed.

Theorem C01_ranges_nonempty_and_maximal : forall indices : list Z,
  (indices = [] -> ranges_from_array indices = [(0, 0)]) /\
  (indices <> [] -> Forall (fun r => fst r < snd r) (ranges_from_array indices)) /\
  (forall i r1 r2,
      nth_error (ranges_from_array indices) i = Some r1 ->
      nth_error (ranges_from_array indices) (S i) = Some r2 ->
      snd r1 <> fst r2).
Proof.
  intros l. split; [now intros ->|]. split.
  - apply ranges_from_array_nonempty.
  - intros i r1 r2. apply ranges_from_array_maximal.
Qed.

Example C01_example :
  ranges_from_array [0; 1; 2; 3; 5; 6; 7; 9; 11; 12; 13]
  = [(0, 4); (5, 8); (9, 10); (11, 14)].
Proof. reflexivity. Qed.

(** * C02 *)

Theorem C02_unchunked_read : forall (A B : Type) (col : A -> B) (data : list A)
    (ranges : list (Z * Z)),
  Forall (in_bounds (zlen data)) ranges ->
  exists out, read_ranges_unchunked col data ranges (total_rows ranges) = Ok out /\
              rows_are col data (indices_of ranges) out.
Proof.
  intros A B col data rs H. exists (map Some (all_rows col data rs)). split.
  - now apply unchunked_exact.
  - now apply all_rows_are.
Qed.

(** Buffers of another size.  In a larger one, elements are left that are never written. *)
Theorem C02_unchunked_large_buffer : forall (A B : Type) (col : A -> B) (data : list A)
    (ranges : list (Z * Z)) (size : Z),
  Forall (in_bounds (zlen data)) ranges ->
  total_rows ranges < size ->
  exists out rest, read_ranges_unchunked col data ranges size = Ok (out ++ rest)
    /\ rows_are col data (indices_of ranges) out /\ zlen rest = size - total_rows ranges /\ Forall (fun x => x = None) rest.
Proof.
  intros A B col data rs n H Hn. pose proof (total_rows_nonneg _ (in_bounds_wf _ _ H)) as Hnn.
  exists (map Some (all_rows col data rs)), (repeat None (Z.to_nat (n - total_rows rs))).
  split; [apply unchunked_general; [assumption|lia]|]. split; [now apply all_rows_are|].
  split; [unfold zlen; rewrite repeat_length; lia|]. apply Forall_forall. intros x I. now apply repeat_spec in I.
Qed.

(** With a smaller one the read fails, unless the ranges that do not fit have one row each: these are lost. *)
Theorem C02_unchunked_small_buffer : forall (A B : Type) (col : A -> B) (data : list A)
    (ranges : list (Z * Z)) (size : Z),
  Forall (in_bounds (zlen data)) ranges -> 0 <= size ->
  size < total_rows ranges ->
  (exists fit left out, ranges = fit ++ left /\ total_rows fit = size /\ Forall (fun r => snd r - fst r <= 1) left
     /\ read_ranges_unchunked col data ranges size = Ok out /\ rows_are col data (indices_of fit) out)
  \/ ((forall fit left, ranges = fit ++ left -> total_rows fit = size -> Exists (fun r => 1 < snd r - fst r) left)
      /\ read_ranges_unchunked col data ranges size = Err TypeError).
Proof.
  intros A B col data rs n H H0 Hn. unfold read_ranges_unchunked. rewrite np_empty_ok by assumption. cbn [bind].
  pose proof (read_loop_small col data rs [] (repeat None (Z.to_nat n)) H) as R.
  cbn [map app] in R. change (zlen (@nil B)) with 0 in R.
  assert (L : zlen (repeat (@None B) (Z.to_nat n)) = n) by (unfold zlen; rewrite repeat_length; lia).
  rewrite L in R. destruct (R Hn) as [(pre & post & -> & T & O & E)|(N & E)].
  - left. exists pre, post, (map Some (all_rows col data pre)). repeat (split; [assumption||reflexivity|]).
    apply all_rows_are. apply Forall_app in H. tauto.
  - right. split; assumption.
Qed.

Theorem C02_lost_row_refuted : exists (data : list Z) (ranges : list (Z * Z)) (size : Z),
  Forall (in_bounds (zlen data)) ranges /\ size < total_rows ranges
  /\ read_ranges_unchunked (fun x => x) data ranges size = Ok [Some 10; Some 11].
Proof.
  exists [10; 11; 12; 13], [(0, 2); (3, 4)], 2. split; [|split; reflexivity].
  repeat constructor; unfold in_bounds; cbn; lia.
Qed.

(** Which exceptions there are: arrays of negative length, rows or buffers that do not fit, and, for ranges that are
    not in the dataset only, nothing that is put into nothing. *)
Lemma read_loop_error : forall (A B : Type) (col : A -> B) (data : list A) ranges i out e,
  read_loop col data ranges i out = Err e -> e = TypeError \/ e = ZeroDivision.
Proof.
  intros A B col data ranges. induction ranges as [|(s, t) rest IH]; intros i out e H; cbn [read_loop] in H; [discriminate|].
  destruct (t =? s); [eauto|].
  destruct (read_direct col data (s, t) out (i, t - s + i)) as [o|e'] eqn:R; [eauto|]. injection H as <-.
  unfold read_direct in R. destruct (py_slice _ (s, t)) as [a n]. destruct (py_slice _ _) as [d m].
  destruct (n =? m); [destruct (n =? 0); [right|]; congruence|]. destruct (n =? 1); [congruence|]. left. congruence.
Qed.

Theorem C02_unchunked_errors : forall (A B : Type) (col : A -> B) (data : list A)
    (ranges : list (Z * Z)) (size : Z) (e : pyerr),
  read_ranges_unchunked col data ranges size = Err e ->
  (size < 0 /\ e = ValueError) \/ (0 <= size /\ (e = TypeError \/ e = ZeroDivision))
  /\ (Forall (in_bounds (zlen data)) ranges -> e = TypeError).
Proof.
  intros A B col data rs n e H. destruct (Z_lt_le_dec n 0) as [N|N].
  - left. unfold read_ranges_unchunked, np_empty in H. replace (n <? 0) with true in H by (symmetry; now apply Z.ltb_lt).
    split; [assumption|]. cbn [bind] in H. congruence.
  - right. split; [split; [assumption|]|].
    + unfold read_ranges_unchunked in H. rewrite np_empty_ok in H by assumption. cbn [bind] in H. now apply read_loop_error in H.
    + intro B0. destruct (Z_lt_le_dec n (total_rows rs)) as [S|S].
      * destruct (C02_unchunked_small_buffer A B col data rs n B0 N S) as [(? & ? & ? & _ & _ & _ & E & _)|(_ & E)]; rewrite E in H; congruence.
      * rewrite unchunked_general in H by assumption. discriminate.
Qed.

Example C02_error_case :
  read_ranges_unchunked (fun x => x) [10; 11] [(0, 3)] 3 = Err TypeError /\
  read_ranges_unchunked (fun x => x) [10; 11] [(0, 2)] 1 = Err TypeError /\
  read_ranges_unchunked (fun x => x) [10; 11] [(3, 2)] 0 = Err ZeroDivision /\
  read_ranges_unchunked (fun x => x) [10; 11] [(0, 2)] (-1) = Err ValueError.
Proof. repeat split. Qed.

Example C02_example :
  read_ranges_unchunked (fun x => x) [10; 11; 12; 13; 14; 15] [(3, 5); (2, 2); (0, 1)] 3
  = Ok [Some 13; Some 14; Some 10] /\
  Forall (in_bounds (zlen [10; 11; 12; 13; 14; 15])) [(3, 5); (2, 2); (0, 1)].
Proof.
  split; [reflexivity|]. repeat constructor; unfold in_bounds; cbn; lia.
Qed.

(** * C03 *)

Theorem C03_chunked_read : forall (A B : Type) (col : A -> B) (data : list A)
    (chunk_size : Z) (ranges : list (Z * Z)) (size : Z),
  0 < chunk_size ->
  ranges <> [] ->
  Forall (in_bounds (zlen data)) ranges ->
  ordered_ranges ranges ->
  exists out, read_ranges_chunked col data chunk_size ranges size = Ok out /\
              rows_are col data (indices_of ranges) out.
Proof.
  intros A B col data c rs n Hc Hne Hin Hord.
  exists (map Some (all_rows col data rs)). split.
  - now apply chunked_exact.
  - now apply all_rows_are.
Qed.

Theorem C03_chunked_equals_unchunked : forall (A B : Type) (col : A -> B) (data : list A)
    (chunk_size : Z) (ranges : list (Z * Z)),
  0 < chunk_size ->
  ranges <> [] ->
  Forall (in_bounds (zlen data)) ranges ->
  ordered_ranges ranges ->
  read_ranges_chunked col data chunk_size ranges (total_rows ranges)
  = read_ranges_unchunked col data ranges (total_rows ranges).
Proof.
  intros A B col data c rs Hc Hne Hin Hord.
  now rewrite chunked_exact, unchunked_exact.
Qed.

(** Ranges that share a chunk, span chunks, are empty, adjacent, overlap and repeat. *)
Example C03_example :
  let data := [0; 1; 2; 3; 4; 5; 6; 7; 8; 9; 10; 11; 12] in
  let ranges := [(0, 1); (1, 1); (2, 3); (2, 6); (2, 6); (11, 13)] in
  read_ranges_chunked (fun x => x) data 4 ranges 12
  = Ok (map Some [0; 2; 2; 3; 4; 5; 2; 3; 4; 5; 11; 12]) /\
  Forall (in_bounds (zlen data)) ranges /\ ordered_ranges ranges.
Proof.
  split; [reflexivity|]. split.
  - repeat constructor; unfold in_bounds; cbn; lia.
  - repeat constructor; cbn; lia.
Qed.

(** * C04 *)

Theorem C04_chunked_unordered_refuted :
  exists (data : list Z) (chunk_size : Z) (ranges : list (Z * Z)) out,
    0 < chunk_size /\ ranges <> [] /\ Forall (in_bounds (zlen data)) ranges /\
    pairwise_disjoint ranges /\ Forall (fun r => fst r < snd r) ranges /\
    read_ranges_chunked (fun x => x) data chunk_size ranges (total_rows ranges) = Ok out /\
    ~ rows_are (fun x => x) data (indices_of ranges) out.
Proof.
  exists [0; 1; 2; 3; 4; 5; 6; 7; 8; 9; 10; 11], 4, [(8, 9); (4, 8); (9, 12)],
    (map Some [8; 8; 9; 10; 11; 9; 10; 11]).
  split; [lia|]. split; [discriminate|].
  split; [repeat constructor; unfold in_bounds; cbn; lia|].
  split; [repeat constructor; unfold disjoint_ranges; cbn; lia|].
  split; [repeat constructor; cbn; lia|].
  split; [reflexivity|].
  intros H. cbn in H. inversion H as [|? ? ? ? _ H1]; subst.
  inversion H1 as [|? ? ? ? (_ & row & Hrow & Hv) _]; subst.
  cbn in Hrow. injection Hrow as <-. discriminate.
Qed.

(** A second failure mode: an empty range after a range that starts at or above its
    position cuts the last chunk short. *)
Theorem C04_chunked_empty_range_refuted :
  exists (data : list Z) (chunk_size : Z) (ranges : list (Z * Z)),
    0 < chunk_size /\ Forall (in_bounds (zlen data)) ranges /\
    pairwise_disjoint ranges /\
    is_ok (read_ranges_unchunked (fun x => x) data ranges (total_rows ranges)) = true /\
    is_ok (read_ranges_chunked (fun x => x) data chunk_size ranges (total_rows ranges)) = false.
Proof.
  exists [0; 1; 2; 3; 4; 5; 6; 7; 8; 9; 10; 11], 4, [(0, 10); (0, 0)].
  split; [lia|].
  split; [repeat constructor; unfold in_bounds; cbn; lia|].
  split; [repeat constructor; unfold disjoint_ranges; cbn; lia|].
  split; reflexivity.
Qed.

(** * C05 *)

Theorem C05_remote_read : forall (A B : Type) (argsort : list Z -> list nat) (col : A -> B)
    (data : list A) (ranges : list (Z * Z)),
  is_argsort argsort ->
  ranges <> [] ->
  Forall (in_bounds (zlen data)) ranges ->
  pairwise_disjoint ranges ->
  exists out, read_ranges_remote argsort col data ranges (total_rows ranges) = Ok out /\
              rows_are col data (indices_of ranges) out.
Proof.
  intros A B argsort col data rs Harg Hne Hin Hpd.
  exists (map Some (all_rows col data rs)). split.
  - now apply remote_exact.
  - now apply all_rows_are.
Qed.

Theorem C05_overlap_is_error : forall (A B : Type) (argsort : list Z -> list nat)
    (col : A -> B) (data : list A) (ranges : list (Z * Z)) (size : Z),
  is_argsort argsort ->
  ranges <> [] ->
  ~ pairwise_disjoint ranges ->
  read_ranges_remote argsort col data ranges size = Err RuntimeError.
Proof.
  intros A B argsort col data rs n Harg Hne Hnd. unfold read_ranges_remote.
  now rewrite make_ordered_slices_error.
Qed.

Theorem C05_slices_sent : forall (argsort : list Z -> list nat) (n : Z)
    (ranges : list (Z * Z)) (os : ordered_slices),
  is_argsort argsort ->
  Forall (in_bounds n) ranges ->
  make_ordered_slices argsort ranges = Ok os ->
  Forall (fun r => in_bounds n r /\ fst r < snd r) (os_slices os) /\
  StronglySorted (fun a b => snd a < fst b) (os_slices os) /\
  Permutation (indices_of (os_slices os)) (indices_of ranges).
Proof.
  intros argsort n ranges os Harg Hin Hos.
  now destruct (slices_wellformed n argsort ranges os Harg Hin Hos) as (_ & H).
Qed.

(** A buffer of another size is refused. *)
Theorem C05_wrong_size : forall (A B : Type) (argsort : list Z -> list nat) (col : A -> B)
    (data : list A) (ranges : list (Z * Z)) (os : ordered_slices) (size : Z),
  make_ordered_slices argsort ranges = Ok os -> os_slices os <> [] ->
  Forall (in_bounds (zlen data)) (os_slices os) -> size <> total_rows (os_slices os) ->
  read_ranges_remote argsort col data ranges size = Err ValueError.
Proof.
  intros A B argsort col data rs os n Hos Hne Hin Hn. unfold read_ranges_remote. rewrite Hos. cbn [bind].
  unfold np_empty. destruct (n <? 0) eqn:E; [reflexivity|]. cbn [bind]. apply Z.ltb_ge in E.
  destruct (os_slices os) as [|sl0 sl1] eqn:Es; [congruence|]. rewrite <- Es in *. clear Hne Es sl0 sl1.
  assert (X : exists parts, all_ok (map (h5_slice col data) (os_slices os)) = Ok parts /\ zlen (concat parts) = total_rows (os_slices os)).
  { clear Hn Hos. unfold total_rows. induction Hin as [|[s e] l (H1 & H2 & H3) Hl IH]; [now exists []|].
    destruct IH as (parts & Ep & Lp). cbn [map all_ok]. cbn [fst snd] in *.
    unfold h5_slice at 1. replace ((0 <=? s) && (s <=? e) && (e <=? zlen data)) with true.
    2:{ symmetry. rewrite !andb_true_iff, !Z.leb_le. auto. }
    rewrite Ep. eexists. split; [reflexivity|]. cbn [concat map]. rewrite sumZ_cons, <- Lp.
    unfold zlen in *. rewrite app_length, map_length, firstn_length, skipn_length. cbn [fst snd]. lia. }
  destruct X as (parts & Ep & Lp). unfold request_slices. rewrite Ep. cbn [bind].
  replace (zlen (concat parts) =? zlen (repeat None (Z.to_nat n))) with false; [reflexivity|].
  symmetry. apply Z.eqb_neq. rewrite Lp. unfold zlen. rewrite repeat_length. lia.
Qed.

(** A mask in range form that selects no cell is an array of shape (0,): the remote
    reader raises on it, the other readers return an empty array. *)
Theorem C05_remote_no_ranges_refuted : forall (A B : Type) (argsort : list Z -> list nat)
    (col : A -> B) (data : list A),
  read_ranges_remote argsort col data [] 0 = Err IndexError /\
  read_ranges_unchunked col data [] 0 = Ok [].
Proof. intros. split; reflexivity. Qed.

Example C05_example :
  let data := [0; 1; 2; 3; 4; 5; 6; 7; 8; 9] in
  let ranges := [(7, 9); (3, 3); (0, 2); (4, 7)] in
  read_ranges_remote stable_argsort (fun x => x) data ranges (total_rows ranges)
  = Ok (map Some [7; 8; 0; 1; 4; 5; 6]) /\
  option_map os_slices (match make_ordered_slices stable_argsort ranges with
                        | Ok os => Some os | Err _ => None end) = Some [(0, 2); (4, 9)] /\
  is_argsort stable_argsort /\ pairwise_disjoint ranges /\
  Forall (in_bounds (zlen data)) ranges.
Proof.
  split; [reflexivity|]. split; [reflexivity|]. split; [apply stable_argsort_is_argsort|].
  split.
  - repeat constructor; unfold disjoint_ranges; cbn; lia.
  - repeat constructor; unfold in_bounds; cbn; lia.
Qed.

(** * C06 *)

Theorem C06_layout_independent : forall (A B : Type) (argsort : list Z -> list nat)
    (col : A -> B) (data : list A) (lay : layout) (ranges : list (Z * Z)),
  is_argsort argsort ->
  (forall c, lay = Chunked c -> 0 < c) ->
  ranges <> [] ->
  Forall (in_bounds (zlen data)) ranges ->
  StronglySorted (fun a b => snd a <= fst b) ranges ->
  exists out, read_ranges argsort lay col data ranges (total_rows ranges) = Ok out /\
              rows_are col data (indices_of ranges) out.
Proof.
  intros A B argsort col data lay rs Harg Hc Hne Hin Hs.
  exists (map Some (all_rows col data rs)). split.
  - now apply layout_exact.
  - now apply all_rows_are.
Qed.

(** Nothing can be taken from a dataset without rows, not even nothing. *)
Theorem C06_empty_dataset : forall (A : Type) (argsort : list Z -> list nat) (lay : layout) (indices : list Z),
  index_dataset argsort lay (@nil A) indices = Err IndexError.
Proof. reflexivity. Qed.

(** [index_dataset] returns the elements at the given sorted indices. *)
Theorem C06_index_dataset : forall (A : Type) (argsort : list Z -> list nat)
    (data : list A) (lay : layout) (indices : list Z),
  is_argsort argsort ->
  (forall c, lay = Chunked c -> 0 < c) ->
  data <> [] ->
  Forall (fun i => 0 <= i < zlen data) indices ->
  StronglySorted Z.lt indices ->
  exists out, index_dataset argsort lay data indices = Ok out /\
              rows_are (fun x => x) data indices out.
Proof.
  intros A argsort data lay idx Harg Hc Hne Hin Hs.
  destruct (ranges_from_sorted_array (zlen data) idx (zlen_nonneg _) Hin Hs) as [Hr1 Hr2].
  destruct (C06_layout_independent A A argsort (fun x => x) data lay
              (ranges_from_array idx) Harg Hc) as (out & H1 & H2); [|assumption|assumption|].
  - destruct idx as [|x idx]; [discriminate|]. cbn.
    destruct (ranges_loop_head idx x x) as (e & rest & -> & _). discriminate.
  - exists out. rewrite ranges_from_array_indices in H2. split; [|assumption].
    unfold index_dataset. destruct data; [congruence|].
    rewrite <- H1. f_equal.
    rewrite <- (zlen_indices_of (ranges_from_array idx)) by apply ranges_from_array_wf.
    now rewrite ranges_from_array_indices.
Qed.

Example C06_example :
  let data := [0; 1; 2; 3; 4; 5; 6; 7; 8; 9] in
  index_dataset stable_argsort Contiguous data [1; 2; 5; 9] = Ok (map Some [1; 2; 5; 9]) /\
  index_dataset stable_argsort (Chunked 3) data [1; 2; 5; 9] = Ok (map Some [1; 2; 5; 9]) /\
  index_dataset stable_argsort Remote data [1; 2; 5; 9] = Ok (map Some [1; 2; 5; 9]).
Proof. repeat split; reflexivity. Qed.

(** * C48 *)

(** The chunk ranges consist of whole chunks, come in order without touching each other,
    and every requested range lies inside one of them. *)
Theorem C48_chunk_ranges : forall (chunk_size n : Z) (ranges : list (Z * Z)),
  0 < chunk_size -> Forall (in_bounds n) ranges -> ordered_ranges ranges ->
  let chunks := get_chunk_ranges ranges chunk_size n in
  Forall (whole_chunks chunk_size n) chunks /\
  StronglySorted (fun a b : Z * Z => snd a < fst b) chunks /\
  Forall (fun r => Exists (fun c => fst c <= fst r /\ snd r <= snd c) chunks) ranges.
Proof.
  intros cs n rs H B O chunks. subst chunks. unfold get_chunk_ranges.
  destruct (fold_chunked cs n rs H B O) as [W S C _ _]. split; [|split].
  - apply Forall_rev. exact W.
  - apply sorted_rev. exact S.
  - apply Forall_forall. intros r Hr. destruct (C r Hr) as (c & Ic & L & U).
    apply Exists_exists. exists c. split; [apply in_rev; rewrite rev_involutive; exact Ic|].
    rewrite Forall_forall in B. destruct (B r Hr) as (_ & _ & Bn).
    pose proof (lo_le cs r H). pose proof (hi_ge cs n r H Bn). lia.
Qed.

(** Only chunks that hold a requested row are read. *)
Theorem C48_no_other_chunks : forall (chunk_size n : Z) (ranges : list (Z * Z)) c x,
  0 < chunk_size -> Forall (in_bounds n) ranges -> Forall (fun r => fst r < snd r) ranges ->
  ordered_ranges ranges ->
  In c (get_chunk_ranges ranges chunk_size n) -> fst c <= x < snd c ->
  exists y, In y (indices_of ranges) /\ y / chunk_size = x / chunk_size.
Proof.
  intros cs n rs c x H B N O Ic X. unfold get_chunk_ranges in Ic. apply in_rev in Ic.
  destruct (fold_chunked cs n rs H B O) as [_ _ _ T _]. destruct (T c x Ic X) as (r & Ir & P).
  rewrite Forall_forall in B, N.
  destruct (touched cs n r x H (B r Ir) (N r Ir) P) as (y & Y & E).
  exists y. split; [|exact E]. unfold indices_of. apply in_flat_map. exists r. split; [exact Ir|].
  apply In_zrange. exact Y.
Qed.

(** An empty range inside a chunk makes the whole chunk be read. *)
Theorem C48_empty_range_refuted : exists (chunk_size n : Z) (ranges : list (Z * Z)),
  0 < chunk_size /\ Forall (in_bounds n) ranges /\ ordered_ranges ranges /\
  indices_of ranges = [] /\ get_chunk_ranges ranges chunk_size n = [(0, chunk_size)].
Proof.
  exists 4, 8, [(2, 2)]. split; [lia|].
  split; [repeat constructor; unfold in_bounds; cbn; lia|].
  split; [repeat constructor|]. split; reflexivity.
Qed.

Example C48_example :
  get_chunk_ranges [(1, 2); (3, 6); (6, 7); (17, 22)] 4 22 = [(0, 8); (16, 22)] /\
  Forall (in_bounds 22) [(1, 2); (3, 6); (6, 7); (17, 22)] /\
  ordered_ranges [(1, 2); (3, 6); (6, 7); (17, 22)].
Proof.
  split; [reflexivity|]. split.
  - repeat constructor; unfold in_bounds; cbn; lia.
  - repeat constructor; cbn; lia.
Qed.

Print Assumptions C01_ranges_expand_back.
Print Assumptions C01_ranges_nonempty_and_maximal.
Print Assumptions C02_unchunked_read.
Print Assumptions C02_unchunked_large_buffer.
Print Assumptions C02_unchunked_small_buffer.
Print Assumptions C02_lost_row_refuted.
Print Assumptions C03_chunked_read.
Print Assumptions C03_chunked_equals_unchunked.
Print Assumptions C04_chunked_unordered_refuted.
Print Assumptions C04_chunked_empty_range_refuted.
Print Assumptions C05_remote_read.
Print Assumptions C05_overlap_is_error.
Print Assumptions C05_slices_sent.
Print Assumptions C05_remote_no_ranges_refuted.
Print Assumptions C06_layout_independent.
Print Assumptions C06_index_dataset.
Print Assumptions C48_chunk_ranges.
Print Assumptions C48_no_other_chunks.
Print Assumptions C48_empty_range_refuted.
Print Assumptions C02_unchunked_errors.
Print Assumptions C05_wrong_size.
Print Assumptions C06_empty_dataset.

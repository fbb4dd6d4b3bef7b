(** C119: reads of chunked datasets with integers of 64 bits and chunk indices of 32 bits. *)
From Coq Require Import List ZArith Lia Bool Sorted.
From Verif Require Import Base BaseLemmas RangesModel RangesSpec RangesProofs ChunkProofs RangesTheorems WordModel WordProofs.
Import ListNotations.
Open Scope Z_scope.

(** Ranges are those of unlimited integers if the end of every range is an integer of 64 bits. *)
Theorem C119_ranges_from_array : forall values : list Z,
  Forall (fun v => - 2 ^ 63 <= v < 2 ^ 63 - 1) values ->
  ranges_from_array64 values = ranges_from_array values.
Proof.
  intros values F. destruct values as [|v values]; [reflexivity|]. inversion F; subst. unfold ranges_from_array64, ranges_from_array.
  apply ranges_loop_same; assumption.
Qed.

(** The largest integer ends its range at the smallest. *)
Theorem C119_largest_refuted : ranges_from_array64 [2 ^ 63 - 2; 2 ^ 63 - 1] = [(2 ^ 63 - 2, - 2 ^ 63)].
Proof. reflexivity. Qed.

(** Ranges with fewer than 2^63 rows together are expanded to their rows. *)
Theorem C119_expand : forall ranges : list (Z * Z),
  Forall (fun r => - 2 ^ 63 < fst r /\ fst r <= snd r /\ snd r < 2 ^ 63) ranges -> total_rows ranges < 2 ^ 63 ->
  expand_ranges64 ranges = Ok (indices_of ranges).
Proof.
  intros ranges F T. assert (W : Forall (fun r : Z * Z => fst r <= snd r) ranges) by (eapply Forall_impl; [|exact F]; cbn; intros; lia).
  rewrite expand_same.
  - now apply expand_ranges_spec.
  - assert (L : forall r, In r ranges -> snd r - fst r <= total_rows ranges).
    { clear - W. induction W as [|x l H Fl IH]; intros r [].
      - subst. rewrite total_rows_cons. pose proof (total_rows_nonneg l Fl). lia.
      - specialize (IH r H0). rewrite total_rows_cons. lia. }
    rewrite Forall_forall in *. intros r Hr. specialize (F r Hr). specialize (L r Hr). unfold top. lia.
  - exact T.
Qed.

(** Reads of chunked datasets return the requested rows with these integers too, if the indices of the chunk ranges fit into
    32 bits: for at most 2^31 ranges, or datasets of fewer than 2^31 chunks, or of up to 2^32 chunks if no range is empty. *)
Theorem C119_chunked : forall (A B : Type) (col : A -> B) (data : list A) (chunk_size : Z) (ranges : list (Z * Z)),
  0 < chunk_size -> ranges <> [] -> Forall (in_bounds (zlen data)) ranges -> ordered_ranges ranges ->
  zlen data + chunk_size <= 2 ^ 63 -> total_rows ranges < 2 ^ 63 ->
  (zlen ranges <= 2 ^ 31 \/ zlen data < 2 ^ 31 * chunk_size \/
   (Forall (fun r => fst r < snd r) ranges /\ zlen data <= 2 ^ 32 * chunk_size)) ->
  exists out, read_ranges_chunked64 col data chunk_size ranges = Ok out /\ rows_are col data (indices_of ranges) out.
Proof.
  intros A B col data c rs Hc Hne F O Hn Ht Hfew.
  destruct (C03_chunked_read A B col data c rs 0 Hc Hne F O) as (out & E & R). exists out. split; [|exact R].
  rewrite <- E. apply word_chunked; auto.
  destruct (get_chunk_ranges_grouped (zlen data) c rs Hc F O) as (groups & Ec & G & S).
  destruct (C48_chunk_ranges c (zlen data) rs Hc F O) as (W & _ & _).
  destruct Hfew as [H|[H|[N H]]].
  - pose proof (few_by_ranges _ _ _ G) as Q. rewrite <- Ec in Q. change (2 ^ 31) with 2147483648 in H. lia.
  - apply (few_by_rows c (zlen data)); auto.
  - apply (few_by_full_rows c (zlen data)); auto. rewrite Ec in N. apply (full_chunks _ _ _ G N).
Qed.

Example C119_example :
  let data := [10; 11; 12; 13; 14; 15; 16] in let ranges := [(0, 1); (3, 5)] in
  read_ranges_chunked64 (fun x => x) data 2 ranges = Ok (map Some [10; 13; 14]) /\
  Forall (in_bounds (zlen data)) ranges /\ ordered_ranges ranges /\ zlen ranges <= 2 ^ 31 /\ zlen data + 2 <= 2 ^ 63.
Proof.
  split; [reflexivity|]. split; [repeat constructor; unfold in_bounds; cbn; lia|]. split; [|split; unfold zlen; cbn; lia].
  repeat constructor; cbn; lia.
Qed.

(** * One chunk more *)

Definition every_other (i : nat) : range := (2 * Z.of_nat i, 2 * Z.of_nat i + 1).

Lemma other_chunks n m : 2 * Z.of_nat m <= n + 1 -> fold_left (chunk_step 1 n) (map every_other (seq 0 m)) [] = rev (map every_other (seq 0 m)).
Proof.
  induction m as [|m IH]; intros H; [reflexivity|]. rewrite seq_S, map_app, fold_left_app, IH, rev_app_distr by lia. cbn [map fold_left rev app Nat.add].
  unfold chunk_step. assert (E1 : fst (every_other m) / 1 * 1 = fst (every_other m)) by (rewrite Z.div_1_r; lia).
  assert (E2 : Z.min (- (- snd (every_other m) / 1) * 1) n = snd (every_other m)) by (rewrite Z.div_1_r; unfold every_other; cbn [fst snd]; lia).
  rewrite E1, E2, <- surjective_pairing. destruct m as [|m].
  - reflexivity.
  - rewrite seq_S, map_app, rev_app_distr. cbn [map rev app Nat.add]. cbn [fst snd every_other].
    unfold every_other at 1. cbn [fst snd].
    destruct (Z.ltb_spec (2 * Z.of_nat m + 1) (2 * Z.of_nat (S m))); [reflexivity|lia].
Qed.

Lemma other_assign m : forall a, assign_chunks (map every_other (seq a m)) a (map every_other (seq a m)) = seq a m.
Proof.
  induction m as [|m IH]; intros a; [reflexivity|]. cbn [seq map]. rewrite assign_cons_unfold.
  replace (chunk_contains (every_other a) (every_other a)) with true by (symmetry; apply chunk_contains_iff; lia). f_equal.
  refine (eq_trans _ (IH (S a))). rewrite assign_cons_unfold. destruct m as [|m]; [reflexivity|]. cbn [seq map].
  replace (chunk_contains (every_other a) (every_other (S a))) with false; [reflexivity|].
  symmetry. apply not_true_iff_false. rewrite chunk_contains_iff. unfold every_other. cbn [fst snd]. lia.
Qed.

Lemma map_nth_seq {X} (f : nat -> X) m i : (i < m)%nat -> nth_error (map f (seq 0 m)) i = Some (f i).
Proof. intros H. rewrite nth_error_map, nth_error_nth' with (d := O) by (rewrite seq_length; exact H). rewrite seq_nth by exact H. reflexivity. Qed.

(** The index 2^31 becomes -2^31, which is the second of the chunk ranges. *)
Lemma other_adjust K chunks : Z.of_nat K = 2147483648 -> zlen chunks = 2147483649 ->
  (forall i, (i < S K)%nat -> nth_error chunks i = Some (every_other i)) -> forall m k, (k + S m = K)%nat ->
  adjust_ranges64 chunks (map (fun i => i32 (Z.of_nat i)) (seq k (S (S m)))) (map every_other (seq k (S (S m)))) (Z.of_nat k) =
  Ok (map (fun i => (Z.of_nat i, Z.of_nat i + 1)) (seq k (S m)) ++ [(6442450941, 6442450942)]).
Proof.
  intros HK Z1 Hc. induction m as [|m IH]; intros k Hk.
  - assert (Ek : Z.of_nat k = 2147483647) by lia. cbn [seq map adjust_ranges64 app].
    rewrite (i32_id (Z.of_nat k)) by lia. rewrite (take_nat _ _ (every_other k)) by (apply Hc; lia).
    assert (E1 : i32 (Z.of_nat (S k)) = - 2147483648) by (replace (Z.of_nat (S k)) with 2147483648 by lia; reflexivity).
    rewrite E1. replace (Z.of_nat k <? - 2147483648) with false by (symmetry; apply Z.ltb_ge; lia).
    assert (E2 : take_one chunks (- 2147483648) = Ok (every_other 1)).
    { unfold take_one. change (- 2147483648 <? 0) with true. cbv iota zeta.
      rewrite Z1. change (- 2147483648 + 2147483649) with 1. change (1 <? 0) with false. cbv iota. change (Z.to_nat 1) with 1%nat.
      rewrite Hc by lia. reflexivity. }
    rewrite E2. unfold every_other. cbn [fst snd]. replace (Z.of_nat (S k)) with 2147483648 by lia. rewrite Ek. reflexivity.
  - cbn [seq map adjust_ranges64]. rewrite (i32_id (Z.of_nat k)) by lia. rewrite (take_nat _ _ (every_other k)) by (apply Hc; lia).
    cbn [map]. specialize (IH (S k) ltac:(lia)). cbn [seq map adjust_ranges64 app] in IH |- *.
    rewrite (i32_id (Z.of_nat (S k))) in IH |- * by lia.
    replace (Z.of_nat k <? Z.of_nat (S k)) with true by (symmetry; apply Z.ltb_lt; lia).
    assert (E : i64 (Z.of_nat k + i64 (snd (every_other k) - fst (every_other k))) = Z.of_nat (S k)).
    { unfold every_other. cbn [fst snd]. replace (2 * Z.of_nat k + 1 - 2 * Z.of_nat k) with 1 by lia. change (i64 1) with 1.
      rewrite i64_id by (unfold top; lia). lia. }
    rewrite E, IH. f_equal. f_equal. unfold every_other. cbn [fst snd].
    rewrite (i64_id (2 * Z.of_nat k - Z.of_nat k)) by (unfold top; lia). rewrite (i64_id (2 * Z.of_nat k - _)) by (unfold top; lia).
    rewrite (i64_id (2 * Z.of_nat k + 1 - _)) by (unfold top; lia). f_equal; lia.
Qed.

Lemma all_ok_err {X} (l : list (res X)) e : (forall x, In x l -> forall e', x = Err e' -> e' = e) -> In (Err e) l -> all_ok l = Err e.
Proof.
  induction l as [|x l IH]; intros H I; [destruct I|]. cbn [all_ok]. destruct x as [a|e'].
  - rewrite IH; [reflexivity|intros y Hy; apply H; now right|]. destruct I as [I|I]; [discriminate|exact I].
  - f_equal. apply (H (Err e')); [now left|reflexivity].
Qed.

Lemma take_one_error {X} (l : list X) i e : take_one l i = Err e -> e = UndefinedRead.
Proof. unfold take_one. destruct (_ <? 0); [congruence|]. destruct (nth_error _ _); congruence. Qed.

Lemma other_bounds K n : 2 * Z.of_nat K <= n + 1 -> Forall (in_bounds n) (map every_other (seq 0 K)).
Proof. intros H. apply Forall_map, Forall_forall. intros i Hi. apply in_seq in Hi. unfold in_bounds, every_other. cbn [fst snd]. lia. Qed.

Lemma other_ordered K : forall a, ordered_ranges (map every_other (seq a K)).
Proof.
  induction K as [|K IH]; intros a; cbn [seq map]; [constructor|]. constructor; [apply IH|].
  apply Forall_map, Forall_forall. intros i Hi. apply in_seq in Hi. unfold every_other. cbn [fst snd]. lia.
Qed.

Lemma total_units f l : Forall (fun i : nat => snd (f i) - fst (f i) = 1) l -> total_rows (map f l) = Z.of_nat (length l).
Proof. induction 1 as [|i l H F IH]; [reflexivity|]. cbn [map length]. rewrite total_rows_cons, IH, H. lia. Qed.

(** The bounds cannot be left out: with every other row of 2^32 + 1 chunks of one row there is one chunk range too many.  All rows
    are read with unlimited integers, and the compiled function reads behind the end of an array. *)
Theorem C119_index_refuted : forall (A : Type) (data : list A), zlen data = 2 ^ 32 + 1 ->
  exists ranges, Forall (in_bounds (zlen data)) ranges /\ ordered_ranges ranges /\ Forall (fun r => fst r < snd r) ranges /\
    zlen ranges = 2 ^ 31 + 1 /\
    (forall size, exists out, read_ranges_chunked (fun x => x) data 1 ranges size = Ok out /\ rows_are (fun x => x) data (indices_of ranges) out) /\
    read_ranges_chunked64 (fun x => x) data 1 ranges = Err UndefinedRead.
Proof.
  intros A data Hd. change (2 ^ 32 + 1) with 4294967297 in Hd. change (2 ^ 31 + 1) with 2147483649.
  assert (HK : exists K, Z.of_nat K = 2147483648) by (exists (Z.to_nat 2147483648); apply Z2Nat.id; lia). destruct HK as [K HK].
  set (rs := map every_other (seq 0 (S K))).
  assert (Fr : Forall (in_bounds (zlen data)) rs) by (apply other_bounds; lia).
  assert (Or : ordered_ranges rs) by apply other_ordered.
  assert (Nr : Forall (fun r : Z * Z => fst r < snd r) rs).
  { apply Forall_map, Forall_forall. intros i _. unfold every_other. cbn [fst snd]. lia. }
  assert (Ne : rs <> []) by (unfold rs; cbn [seq map]; discriminate).
  exists rs. split; [exact Fr|]. split; [exact Or|]. split; [exact Nr|]. split.
  { unfold rs, zlen. rewrite map_length, seq_length. lia. }
  split; [intros size; now apply C03_chunked_read|].
  assert (T : total_rows rs = 2147483649).
  { unfold rs. rewrite total_units, seq_length; [lia|]. apply Forall_forall. intros i _. unfold every_other. cbn [fst snd]. lia. }
  assert (Ec : get_chunk_ranges64 rs 1 (zlen data) = rs).
  { rewrite get_chunk_ranges_same; [|lia|exact Fr|unfold top; lia]. unfold get_chunk_ranges, rs. rewrite other_chunks by lia. apply rev_involutive. }
  unfold read_ranges_chunked64. rewrite Ec.
  rewrite total_same; [|eapply Forall_impl; [|exact Fr]; intros r (R1 & R2 & R3); unfold top; lia|rewrite T; reflexivity].
  pose proof (unchunked_exact (fun x : A => x) data rs Fr) as Q. unfold read_ranges_unchunked in Q.
  destruct (np_empty (total_rows rs)) as [buf|e]; [|discriminate]. cbn [bind] in *. rewrite Q. cbn [bind]. clear Q buf.
  pose proof (all_rows_length (fun x : A => x) data rs Fr) as L. rewrite T in L.
  unfold extract_ranges64, assign_chunks32.
  assert (Ea : assign_chunks rs 0 rs = seq 0 (S K)) by apply other_assign. rewrite Ea.
  destruct K as [|K]; [lia|]. pose proof (other_adjust (S K) rs HK ltac:(unfold rs, zlen; rewrite map_length, seq_length; lia) (map_nth_seq every_other (S (S K))) K 0 ltac:(lia)) as Q.
  change (Z.of_nat 0) with 0 in Q. change (map every_other (seq 0 (S (S K)))) with rs in Q.
  rewrite Q. cbn [bind]. clear Q. set (adj := map _ (seq 0 (S K)) ++ _).
  assert (Ta : total_rows adj = 2147483649).
  { unfold adj. rewrite total_rows_app, total_units, seq_length; [unfold total_rows; cbn [map sumZ fold_right fst snd]; lia|].
    apply Forall_forall. intros i _. cbn [fst snd]. lia. }
  assert (Fa : Forall (fun r : Z * Z => - 2 ^ 63 < fst r /\ fst r <= snd r /\ snd r < 2 ^ 63) adj).
  { unfold adj. apply Forall_app. split; [|repeat constructor; cbn; lia]. apply Forall_map, Forall_forall. intros i Hi. apply in_seq in Hi. cbn [fst snd].
    change (2 ^ 63) with 9223372036854775808. lia. }
  rewrite (C119_expand adj Fa) by (rewrite Ta; reflexivity). cbn [bind]. apply all_ok_err.
  - intros x Hx e' ->. apply in_map_iff in Hx. destruct Hx as (i & Hi & _). now apply take_one_error in Hi.
  - apply in_map_iff. exists 6442450941. split.
    + unfold take_one. change (6442450941 <? 0) with false. cbv iota zeta. change (6442450941 <? 0) with false. cbv iota.
      destruct (nth_error _ _) eqn:En; [|reflexivity]. exfalso.
      assert (Z.to_nat 6442450941 < length (map Some (all_rows (fun x : A => x) data rs)))%nat as Hlt by (apply nth_error_Some; rewrite En; discriminate).
      rewrite map_length in Hlt. unfold zlen in L. clear - Hlt L. lia.
    + unfold indices_of, adj. apply in_flat_map. exists (6442450941, 6442450942). split; [apply in_or_app; right; left; reflexivity|].
      apply In_zrange. cbn [fst snd]. lia.
Qed.

Print Assumptions C119_ranges_from_array.
Print Assumptions C119_largest_refuted.
Print Assumptions C119_expand.
Print Assumptions C119_chunked.
Print Assumptions C119_index_refuted.

(** Integers of 64 and 32 bits in the compiled functions of accelerated.py. *)
From Coq Require Import List ZArith Lia Bool Sorted.
From Verif Require Import Base BaseLemmas RangesModel RangesSpec RangesProofs ChunkProofs RangesTheorems WordModel.
Import ListNotations.
Open Scope Z_scope.

Definition top : Z := 9223372036854775808.

Lemma i64_id z : - top <= z < top -> i64 z = z.
Proof.
  intros H. unfold i64, word. change (2 ^ (64 - 1)) with top. change (2 ^ 64) with (2 * top). rewrite Z.mod_small; unfold top in *; lia.
Qed.

Lemma i32_id z : - 2147483648 <= z < 2147483648 -> i32 z = z.
Proof.
  intros H. unfold i32, word. change (2 ^ (32 - 1)) with 2147483648. change (2 ^ 32) with 4294967296. rewrite Z.mod_small; lia.
Qed.

Lemma ranges_loop_same values : forall start stop, - top <= stop < top - 1 -> Forall (fun v => - top <= v < top - 1) values ->
  ranges_loop64 start stop values = ranges_loop start stop values.
Proof.
  induction values as [|v values IH]; intros start stop H F; cbn [ranges_loop64 ranges_loop]; rewrite i64_id by lia; [reflexivity|].
  inversion F; subst. destruct (negb _); [f_equal|]; now apply IH.
Qed.

(** * Chunks *)

Lemma chunk_step_same c n acc r : 0 < c -> in_bounds n r -> n + c <= top -> chunk_step64 c n acc r = chunk_step c n acc r.
Proof.
  intros Hc (H0 & H1 & H2) Hn. unfold chunk_step64, chunk_step.
  assert (D : 0 <= fst r / c <= fst r).
  { split; [now apply Z.div_pos|]. apply Z.div_le_upper_bound; [exact Hc|]. nia. }
  pose proof (chunk_lower_bounds (fst r) c Hc H0) as L.
  assert (U : - snd r <= - snd r / c <= 0).
  { split; [|apply Z.div_le_upper_bound; lia]. apply Z.div_le_lower_bound; [exact Hc|]. nia. }
  assert (V : snd r <= - (- snd r / c) * c < snd r + c).
  { split; [now apply chunk_upper_bound|]. pose proof (Z.mod_pos_bound (- snd r) c Hc). pose proof (Z.div_mod (- snd r) c). nia. }
  rewrite (i64_id (fst r / c)) by lia. rewrite (i64_id (fst r / c * c)) by lia. rewrite (i64_id (- snd r)) by lia.
  rewrite (i64_id (- snd r / c)) by lia. rewrite (i64_id (- (- snd r / c))) by lia. rewrite (i64_id (- (- snd r / c) * c)) by lia. reflexivity.
Qed.

Lemma get_chunk_ranges_same c n rs : 0 < c -> Forall (in_bounds n) rs -> n + c <= top -> get_chunk_ranges64 rs c n = get_chunk_ranges rs c n.
Proof.
  intros Hc F Hn. unfold get_chunk_ranges64, get_chunk_ranges. f_equal. generalize (@nil range) as acc.
  induction F as [|r rs Hr F IH]; intros acc; [reflexivity|]. cbn [fold_left]. rewrite chunk_step_same by assumption. apply IH.
Qed.

(** Chunks that are whole and do not touch start at least a chunk behind each other. *)
Lemma chunk_starts c n : 0 < c -> forall chunks k ck, Forall (whole_chunks c n) chunks -> separated chunks ->
  nth_error chunks k = Some ck -> Z.of_nat k * c <= fst ck.
Proof.
  intros Hc chunks. enough (G : forall base, (match chunks with [] => True | c0 :: _ => base <= fst c0 end) ->
    forall k ck, Forall (whole_chunks c n) chunks -> separated chunks -> nth_error chunks k = Some ck -> base + Z.of_nat k * c <= fst ck).
  { intros k ck F S E. specialize (G 0). apply G with (k := k); auto. destruct F as [|c0 ? (H & _) _]; [exact I|exact H]. }
  induction chunks as [|c0 chunks IH]; intros base Hb k ck F S E; [destruct k; discriminate|].
  destruct k as [|k]; [injection E as <-; lia|]. cbn [nth_error] in E. inversion F as [|? ? W F']; subst.
  destruct chunks as [|c1 chunks]; [destruct k; discriminate|]. cbn [separated] in S. destruct S as [S1 S2].
  specialize (IH (base + c)). assert (G : base + c + Z.of_nat k * c <= fst ck); [|lia].
  apply IH; auto. inversion F' as [|? ? W' _]; subst. destruct W as (W1 & W2 & W3 & W4 & W5), W' as (X1 & X2 & X3 & X4 & X5).
  destruct W5 as [W5|W5]; [|lia]. assert (D : (c | fst c1 - snd c0)) by (apply Z.divide_sub_r; assumption).
  apply Z.divide_pos_le in D; lia.
Qed.

Lemma separated_sorted n chunks : Forall (in_bounds n) chunks -> separated chunks -> StronglySorted (fun a b : range => snd a < fst b) chunks.
Proof.
  induction chunks as [|a chunks IH]; intros F S; [constructor|]. inversion F as [|? ? B F']; subst.
  destruct chunks as [|b chunks]; [repeat constructor|]. cbn [separated] in S. destruct S as [S1 S2].
  specialize (IH F' S2). constructor; [exact IH|]. constructor; [exact S1|].
  inversion IH as [|? ? _ G]; subst. inversion F' as [|? ? (B1 & B2 & B3) _]; subst. eapply Forall_impl; [|exact G]. cbn. intros x Hx. lia.
Qed.

Lemma sorted_nth {X} (R : X -> X -> Prop) l : StronglySorted R l -> forall i j a b, (i < j)%nat -> nth_error l i = Some a -> nth_error l j = Some b -> R a b.
Proof.
  induction 1 as [|x l S IH F]; intros i j a b Hij Ha Hb; [destruct i; discriminate|].
  destruct j as [|j]; [lia|]. cbn [nth_error] in Hb. destruct i as [|i].
  - injection Ha as <-. rewrite Forall_forall in F. apply F. eapply nth_error_In; eauto.
  - cbn [nth_error] in Ha. apply IH with (i := i) (j := j); auto. lia.
Qed.

(** * Adjusted ranges *)

Lemma take_nat {X} (l : list X) i x : nth_error l i = Some x -> take_one l (Z.of_nat i) = Ok x.
Proof.
  intros H. unfold take_one. destruct (Z.ltb_spec (Z.of_nat i) 0); [lia|]. destruct (Z.ltb_spec (Z.of_nat i) 0); [lia|].
  now rewrite Nat2Z.id, H.
Qed.

Lemma adjust_same n chunks : n < top -> zlen chunks <= 2147483648 -> Forall (in_bounds n) chunks -> separated chunks ->
  forall idx ranges sum, Forall (in_bounds n) ranges -> length idx = length ranges -> StronglySorted le idx ->
  Forall (fun i => (i < length chunks)%nat) idx -> 0 <= sum ->
  (forall i c, hd_error idx = Some i -> nth_error chunks i = Some c -> sum <= fst c) ->
  adjust_ranges64 chunks (map (fun i => i32 (Z.of_nat i)) idx) ranges sum = adjust_ranges chunks idx ranges sum /\
  (forall out, adjust_ranges chunks idx ranges sum = Ok out ->
     Forall (fun r => - n <= fst r /\ fst r <= snd r /\ snd r <= n) out /\ total_rows out = total_rows ranges).
Proof.
  intros Hn Hlen Fc Sep. pose proof (separated_sorted n chunks Fc Sep) as Srt.
  assert (T : 0 <= zlen chunks) by apply zlen_nonneg.
  induction idx as [|i idx IH]; intros ranges sum Fr Hl Si Fi H0 Hs.
  { cbn. split; [reflexivity|]. discriminate. }
  destruct ranges as [|r ranges]; [discriminate|]. cbn [map adjust_ranges64 adjust_ranges].
  inversion Fi as [|? ? Hi Fi']; subst. inversion Fr as [|? ? Hr Fr']; subst. inversion Si as [|? ? Si' Gi]; subst.
  assert (E32 : forall k, (k < length chunks)%nat -> i32 (Z.of_nat k) = Z.of_nat k) by (intros k Hk; apply i32_id; unfold zlen in *; lia).
  rewrite (E32 i) by exact Hi. destruct (nth_error chunks i) as [c|] eqn:Ec.
  2:{ apply nth_error_None in Ec. lia. }
  rewrite (take_nat _ _ _ Ec). specialize (Hs i c eq_refl Ec).
  assert (Bc : in_bounds n c) by (rewrite Forall_forall in Fc; apply Fc; eapply nth_error_In; eauto).
  unfold in_bounds in Bc, Hr. unfold top in *.
  rewrite (i64_id (fst c - sum)) by (unfold top; lia). rewrite (i64_id (fst r - _)) by (unfold top; lia). rewrite (i64_id (snd r - _)) by (unfold top; lia).
  destruct idx as [|j idx].
  - cbn [map]. destruct ranges; [|discriminate]. split; [reflexivity|]. intros out H. injection H as <-. split.
    + constructor; [cbn; lia|constructor].
    + unfold total_rows. cbn. lia.
  - cbn [map]. inversion Fi' as [|? ? Hj _]; subst. inversion Gi as [|? ? Hij _]; subst.
    rewrite (E32 j) by exact Hj.
    set (sum' := if Nat.ltb i j then sum + (snd c - fst c) else sum).
    assert (Es : (if Z.of_nat i <? Z.of_nat j then i64 (sum + i64 (snd c - fst c)) else sum) = sum').
    { unfold sum'. destruct (Nat.ltb_spec i j), (Z.ltb_spec (Z.of_nat i) (Z.of_nat j)); try lia.
      rewrite (i64_id (snd c - fst c)) by (unfold top; lia). rewrite i64_id by (unfold top; lia). reflexivity. }
    rewrite Es. destruct (IH ranges sum') as [IH1 IH2]; auto.
    + unfold sum'. destruct (Nat.ltb i j); lia.
    + intros k d Ek Ed. cbn in Ek. injection Ek as <-. unfold sum'. destruct (Nat.ltb_spec i j) as [L|L].
      * pose proof (sorted_nth _ _ Srt i j c d L Ec Ed) as Q. cbn in Q. lia.
      * assert (i = j) by lia. subst j. assert (c = d) by congruence. subst d. exact Hs.
    + cbn [map] in IH1. rewrite (E32 j) in IH1 by exact Hj. rewrite IH1. split; [reflexivity|].
      intros out H. destruct (adjust_ranges chunks (j :: idx) ranges sum') as [rest|] eqn:Ea; [|discriminate].
      injection H as <-. destruct (IH2 rest eq_refl) as [G1 G2]. split.
      * constructor; [cbn; lia|exact G1].
      * rewrite !total_rows_cons, G2. cbn. lia.
Qed.

(** * Expanded ranges *)

Lemma sum_same l : forall s, 0 <= s -> Forall (fun x => 0 <= x) l -> s + sumZ l < top -> fold_left (fun s x => i64 (s + x)) l s = s + sumZ l.
Proof.
  induction l as [|x l IH]; intros s Hs F H; cbn [fold_left]; [unfold sumZ; cbn; lia|]. inversion F; subst. rewrite sumZ_cons in *.
  assert (0 <= sumZ l). { clear - H3. induction H3; [cbn; lia|]. rewrite sumZ_cons. lia. }
  rewrite i64_id by (unfold top in *; lia). rewrite IH by (auto; lia). lia.
Qed.

Lemma total_same ranges : Forall (fun r => - top < fst r /\ fst r <= snd r /\ snd r < top /\ snd r - fst r < top) ranges -> total_rows ranges < top ->
  sum64 (lengths64 ranges) = total_rows ranges.
Proof.
  intros F H. unfold sum64, lengths64. assert (E : map (fun b => i64 (snd b - fst b)) ranges = map (fun b => snd b - fst b) ranges).
  { apply map_ext_in. intros r Hr. rewrite Forall_forall in F. specialize (F r Hr). apply i64_id. unfold top in *; lia. }
  rewrite E, sum_same; [reflexivity|lia| |exact H]. apply Forall_map. eapply Forall_impl; [|exact F]. cbn. intros r Hr. lia.
Qed.

Lemma expand_loop_same ranges : forall i output, Forall (fun r => - top < fst r /\ fst r <= snd r /\ snd r < top /\ snd r - fst r < top) ranges ->
  0 <= i -> i + total_rows ranges < top -> expand_loop64 ranges i output = expand_loop ranges i output.
Proof.
  induction ranges as [|[lo up] ranges IH]; intros i output F Hi H; [reflexivity|]. cbn [expand_loop64 expand_loop].
  inversion F as [|? ? (F1 & F2 & F3 & F4) F']; subst. cbn [fst snd] in *. rewrite total_rows_cons in H. cbn [fst snd] in H.
  assert (0 <= total_rows ranges) by (apply total_rows_nonneg; eapply Forall_impl; [|exact F']; cbn; intros; lia).
  rewrite (i64_id (up - lo)) by (unfold top in *; lia).
  assert (E : map (fun j => i64 (lo + j)) (zrange 0 (up - lo)) = zrange lo up).
  { transitivity (map (fun x => x + lo) (zrange 0 (up - lo))).
    - apply map_ext_in. intros x Hx. apply In_zrange in Hx. rewrite i64_id by (unfold top in *; lia). lia.
    - rewrite <- zrange_shift. f_equal; lia. }
  rewrite E, zlen_zrange. rewrite (i64_id (i + Z.max 0 (up - lo))) by (unfold top in *; lia). rewrite (i64_id (i + (up - lo))) by (unfold top in *; lia).
  destruct (_ || _); [reflexivity|]. apply IH; auto; lia.
Qed.

Lemma expand_same ranges : Forall (fun r => - top < fst r /\ fst r <= snd r /\ snd r < top /\ snd r - fst r < top) ranges -> total_rows ranges < top ->
  expand_ranges64 ranges = expand_ranges ranges.
Proof.
  intros F H. unfold expand_ranges64, expand_ranges. rewrite total_same by assumption. fold (total_rows ranges).
  destruct (_ <? 0); [reflexivity|]. apply expand_loop_same; auto; lia.
Qed.

(** * Numbers of chunks *)

(** Chunks that hold a row leave out at least a chunk before the next. *)
Lemma full_chunk_starts c n : 0 < c -> forall chunks k ck, Forall (whole_chunks c n) chunks -> Forall (fun x : range => fst x < snd x) chunks ->
  separated chunks -> nth_error chunks k = Some ck -> Z.of_nat k * (2 * c) <= fst ck.
Proof.
  intros Hc chunks. enough (G : forall base, (match chunks with [] => True | c0 :: _ => base <= fst c0 end) ->
    forall k ck, Forall (whole_chunks c n) chunks -> Forall (fun x : range => fst x < snd x) chunks -> separated chunks ->
    nth_error chunks k = Some ck -> base + Z.of_nat k * (2 * c) <= fst ck).
  { intros k ck F N S E. specialize (G 0). apply G with (k := k); auto. destruct F as [|c0 ? (H & _) _]; [exact I|exact H]. }
  induction chunks as [|c0 chunks IH]; intros base Hb k ck F N S E; [destruct k; discriminate|].
  destruct k as [|k]; [injection E as <-; lia|]. cbn [nth_error] in E. inversion F as [|? ? W F']; subst. inversion N as [|? ? N0 N']; subst.
  destruct chunks as [|c1 chunks]; [destruct k; discriminate|]. cbn [separated] in S. destruct S as [S1 S2].
  specialize (IH (base + 2 * c)). assert (G : base + 2 * c + Z.of_nat k * (2 * c) <= fst ck); [|lia].
  apply IH; auto. inversion F' as [|? ? W' _]; subst. destruct W as (W1 & W2 & W3 & W4 & W5), W' as (X1 & X2 & X3 & X4 & X5).
  destruct W5 as [W5|W5]; [|lia]. assert (D : (c | fst c1 - snd c0)) by (apply Z.divide_sub_r; assumption).
  apply Z.divide_pos_le in D; [|lia]. assert (D' : (c | snd c0 - fst c0)) by (apply Z.divide_sub_r; assumption).
  apply Z.divide_pos_le in D'; lia.
Qed.

Lemma last_chunk {X} (l : list X) : l <> [] -> exists x, nth_error l (length l - 1) = Some x.
Proof.
  intros H. destruct (nth_error l (length l - 1)) eqn:E; [eauto|]. apply nth_error_None in E. destruct l; [congruence|cbn in E; lia].
Qed.

Lemma few_by_rows c n chunks : 0 < c -> Forall (whole_chunks c n) chunks -> separated chunks -> n < 2147483648 * c -> zlen chunks <= 2147483648.
Proof.
  intros Hc F S Hn. destruct chunks as [|c0 cs] eqn:E; [unfold zlen; cbn; lia|]. rewrite <- E in *.
  destruct (last_chunk chunks) as (x & Hx); [congruence|]. pose proof (chunk_starts c n Hc _ _ _ F S Hx) as G.
  rewrite Forall_forall in F. destruct (F x (nth_error_In _ _ Hx)) as (_ & L & U & _).
  assert (length chunks <> O) by (rewrite E; discriminate). unfold zlen. nia.
Qed.

Lemma few_by_full_rows c n chunks : 0 < c -> Forall (whole_chunks c n) chunks -> Forall (fun x : range => fst x < snd x) chunks -> separated chunks ->
  n <= 4294967296 * c -> zlen chunks <= 2147483648.
Proof.
  intros Hc F N S Hn. destruct chunks as [|c0 cs] eqn:E; [unfold zlen; cbn; lia|]. rewrite <- E in *.
  destruct (last_chunk chunks) as (x & Hx); [congruence|]. pose proof (full_chunk_starts c n Hc _ _ _ F N S Hx) as G.
  rewrite Forall_forall in F, N. destruct (F x (nth_error_In _ _ Hx)) as (_ & L & U & _). specialize (N x (nth_error_In _ _ Hx)). cbn in N.
  assert (length chunks <> O) by (rewrite E; discriminate). unfold zlen. nia.
Qed.

Lemma few_by_ranges n chunks groups : grouped n chunks groups -> zlen chunks <= zlen (concat groups).
Proof.
  unfold zlen. induction 1 as [|c g cs gs (H & _) _ IH]; [cbn; lia|]. cbn [concat length]. rewrite app_length. destruct g; [congruence|]. cbn [length]. lia.
Qed.

Lemma full_chunks n chunks groups : grouped n chunks groups -> Forall (fun x : range => fst x < snd x) (concat groups) -> Forall (fun x : range => fst x < snd x) chunks.
Proof.
  induction 1 as [|c g cs gs (H & _ & C) _ IH]; intros F; [constructor|]. cbn [concat] in F. apply Forall_app in F. destruct F as [F1 F2].
  constructor; [|now apply IH]. destruct g as [|r g]; [congruence|]. inversion C; inversion F1; subst. lia.
Qed.

(** * Indices of chunks *)

Lemma group_indices_bounds groups : forall i, Forall (fun k => (i <= k < i + length groups)%nat) (group_indices i groups).
Proof.
  induction groups as [|g gs IH]; intros i; cbn [group_indices length]; [constructor|]. apply Forall_app. split.
  - apply Forall_forall. intros k Hk. apply repeat_spec in Hk. lia.
  - eapply Forall_impl; [|apply IH]. cbn. intros; lia.
Qed.

Lemma sorted_repeat i m l : StronglySorted le l -> Forall (fun k => (i <= k)%nat) l -> StronglySorted le (repeat i m ++ l).
Proof.
  intros S F. induction m as [|m IH]; [exact S|]. cbn. constructor; [exact IH|]. apply Forall_app. split; [|exact F].
  apply Forall_forall. intros k Hk. apply repeat_spec in Hk. lia.
Qed.

Lemma group_indices_sorted groups : forall i, StronglySorted le (group_indices i groups).
Proof.
  induction groups as [|g gs IH]; intros i; cbn [group_indices]; [constructor|]. apply sorted_repeat; [apply IH|].
  eapply Forall_impl; [|apply group_indices_bounds]. cbn. intros; lia.
Qed.

Lemma group_indices_length groups : forall i, length (group_indices i groups) = length (concat groups).
Proof. induction groups as [|g gs IH]; intros i; cbn [group_indices concat]; [reflexivity|]. now rewrite !app_length, repeat_length, IH. Qed.

(** * Rows of the chunks *)

Lemma separated_total n chunks : forall base, 0 <= base -> Forall (in_bounds n) chunks -> separated chunks ->
  (match chunks with [] => base <= n | c :: _ => base <= fst c end) -> base + total_rows chunks <= n.
Proof.
  induction chunks as [|c cs IH]; intros base H0 F S Hb; [unfold total_rows; cbn; lia|]. rewrite total_rows_cons.
  inversion F as [|? ? (B1 & B2 & B3) F']; subst. specialize (IH (base + (snd c - fst c))). destruct cs as [|d cs].
  - unfold total_rows. cbn. lia.
  - destruct S as [S1 S2]. specialize (IH ltac:(lia) F' S2 ltac:(lia)). lia.
Qed.

Lemma word_chunked {A B} (col : A -> B) data c rs size : 0 < c -> rs <> [] -> Forall (in_bounds (zlen data)) rs -> ordered_ranges rs ->
  zlen data + c <= top -> total_rows rs < top -> zlen (get_chunk_ranges rs c (zlen data)) <= 2147483648 ->
  read_ranges_chunked64 col data c rs = read_ranges_chunked col data c rs size.
Proof.
  intros Hc Hne F O Hn Ht Hk. unfold read_ranges_chunked64, read_ranges_chunked. rewrite get_chunk_ranges_same by assumption.
  destruct (get_chunk_ranges_grouped (zlen data) c rs Hc F O) as (groups & E & G & S).
  set (chunks := get_chunk_ranges rs c (zlen data)) in *. clearbody chunks.
  assert (Fc : Forall (in_bounds (zlen data)) chunks).
  { clear - G. induction G as [|x g cs gs (_ & H & _) _ IH]; constructor; auto. }
  assert (Hz : 0 <= zlen data) by apply zlen_nonneg.
  assert (Tc : total_rows chunks <= zlen data).
  { pose proof (separated_total (zlen data) chunks 0) as Q. destruct chunks as [|x chunks]; [unfold total_rows; cbn; lia|].
    specialize (Q ltac:(lia) Fc S). inversion Fc as [|? ? (B1 & _) _]; subst. specialize (Q B1). lia. }
  rewrite total_same; [|eapply Forall_impl; [|exact Fc]; intros r (R1 & R2 & R3); unfold top in *; lia|lia].
  fold (total_rows chunks). destruct (np_empty (total_rows chunks)) as [out|e]; [|reflexivity]. cbn [bind].
  destruct (read_loop col data chunks 0 out) as [out'|e]; [|reflexivity]. cbn [bind].
  unfold extract_ranges64, extract_ranges, assign_chunks32.
  assert (A0 : assign_chunks chunks 0 rs = group_indices 0 groups) by (rewrite E in *; now apply (assign_chunks_grouped (zlen data))).
  rewrite A0. destruct (adjust_same (zlen data) chunks ltac:(lia) Hk Fc S (group_indices 0 groups) rs 0) as [Q1 Q2]; auto.
  - rewrite group_indices_length. now rewrite E.
  - apply group_indices_sorted.
  - eapply Forall_impl; [|apply group_indices_bounds]. cbn. intros k Hk'. assert (length chunks = length groups) by (clear - G; unfold grouped in G; induction G; cbn; congruence). lia.
  - lia.
  - intros i x _ Hx. rewrite Forall_forall in Fc. destruct (Fc x (nth_error_In _ _ Hx)) as (R & _). exact R.
  - rewrite Q1. destruct (adjust_ranges chunks (group_indices 0 groups) rs 0) as [adj|e] eqn:Ea; [|reflexivity]. cbn [bind].
    destruct (Q2 adj eq_refl) as [P1 P2]. assert (T : forall r, In r adj -> snd r - fst r <= total_rows adj).
    { clear - P1. induction P1 as [|x l (_ & H & _) Fl IH]; intros r [].
      - subst. rewrite total_rows_cons. pose proof (total_rows_nonneg l). specialize (H0 ltac:(eapply Forall_impl; [|exact Fl]; cbn; intros; lia)). lia.
      - specialize (IH r H0). rewrite total_rows_cons. lia. }
    rewrite expand_same; [reflexivity| |lia]. rewrite Forall_forall in *. intros r Hr. specialize (P1 r Hr). specialize (T r Hr). unfold top in *. lia.
Qed.

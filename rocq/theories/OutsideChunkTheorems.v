(** C116: reading rows that a chunked dataset does not have. *)
From Coq Require Import List ZArith Lia Bool Sorted.
From Verif Require Import Base BaseLemmas RangesModel RangesSpec RangesProofs ChunkProofs ChunkRangeProofs OutsideSpec OutsideTheorems.
Import ListNotations.
Open Scope Z_scope.

(** * The chunks (newest first) *)

Definition apart (a b : range) : Prop := snd b < fst a.

Lemma chunks_inv n c rs : 0 < c -> 0 <= n -> Forall (fun r => 0 <= fst r /\ 0 <= snd r) rs -> forall acc,
  Forall (fun ch => 0 <= fst ch /\ 0 <= snd ch <= n) acc -> Sorted apart acc ->
  let out := fold_left (chunk_step c n) rs acc in
  Forall (fun ch => 0 <= fst ch /\ 0 <= snd ch <= n) out /\ Sorted apart out /\ (rs <> [] \/ acc <> [] -> out <> []).
Proof.
  intros C N W. induction W as [|r rs (R1 & R2) _ IH]; intros acc F S out.
  { split; [exact F|]. split; [exact S|]. intros [H|H]; [congruence|exact H]. }
  cbn [fold_left] in out.
  assert (L : 0 <= fst r / c * c) by (pose proof (Z.div_pos (fst r) c R1 C); nia).
  assert (U : 0 <= Z.min (- (- snd r / c) * c) n <= n).
  { split; [|apply Z.le_min_r]. apply Z.min_glb; [|exact N]. pose proof (Z.mul_div_le (- snd r) c C). nia. }
  assert (X : Forall (fun ch => 0 <= fst ch /\ 0 <= snd ch <= n) (chunk_step c n acc r) /\ Sorted apart (chunk_step c n acc r) /\ chunk_step c n acc r <> []).
  { unfold chunk_step. destruct acc as [|(l0, u0) older].
    - split; [constructor; [cbn [fst snd]; tauto|constructor]|]. split; [repeat constructor|discriminate].
    - destruct (u0 <? fst r / c * c) eqn:E.
      + apply Z.ltb_lt in E. split; [constructor; [cbn [fst snd]; tauto|exact F]|]. split; [|discriminate].
        constructor; [exact S|]. constructor. exact E.
      + inversion F as [|? ? (F1 & F2) F']; subst. inversion S as [|? ? S' H]; subst. split; [constructor; [cbn [fst snd] in *; tauto|exact F']|].
        split; [|discriminate]. constructor; [exact S'|]. destruct H; constructor. exact H. }
  destruct X as (X1 & X2 & X3). destruct (IH _ X1 X2) as (Y1 & Y2 & Y3). split; [exact Y1|]. split; [exact Y2|].
  intros _. apply Y3. right. exact X3.
Qed.

Lemma last_cons2 {A} (a b : A) l d : last (a :: b :: l) d = last (b :: l) d.
Proof. reflexivity. Qed.

Lemma last_default {A} (l : list A) d d' : l <> [] -> last l d = last l d'.
Proof.
  induction l as [|x l IH]; intro H; [congruence|]. destruct l as [|y l]; [reflexivity|]. rewrite !last_cons2. apply IH. discriminate.
Qed.

Lemma chunks_total acc : Sorted apart acc -> Forall (fun ch => fst ch <= snd ch) acc -> forall a rest, acc = a :: rest ->
  total_rows acc <= snd a - fst (last acc a).
Proof.
  induction acc as [|a acc IH]; intros S W a' rest E; [discriminate|]. injection E as <- <-.
  inversion S as [|? ? S' H]; subst. inversion W as [|? ? Wa W']; subst. destruct acc as [|b acc].
  - unfold total_rows. cbn. lia.
  - rewrite total_rows_cons. rewrite last_cons2. rewrite (last_default (b :: acc) a b) by discriminate.
    specialize (IH S' W' b acc eq_refl). inversion H as [|? ? A]; subst. unfold apart in A. lia.
Qed.

(** * Reversed chunk ranges cannot be read *)

Lemma read_reversed {A B} (col : A -> B) data rs : Forall (fun ch => 0 <= fst ch /\ 0 <= snd ch <= zlen data) rs ->
  Exists (fun ch => snd ch < fst ch) rs -> forall i out, is_ok (read_loop col data rs i out) = false.
Proof.
  induction 1 as [|(s, e) rs (S0 & E0) _ IH]; intros X i out; [inversion X|]. cbn [read_loop fst snd] in *.
  destruct (Z_lt_le_dec e s) as [L|L].
  - replace (e =? s) with false by (symmetry; apply Z.eqb_neq; lia).
    assert (R : is_ok (read_direct col data (s, e) out (i, e - s + i)) = false).
    { unfold read_direct. assert (P : snd (py_slice (zlen data) (s, e)) = 0).
      { unfold py_slice. cbn [fst snd]. replace (s <? 0) with false by (symmetry; apply Z.ltb_ge; lia).
        replace (e <? 0) with false by (symmetry; apply Z.ltb_ge; lia). lia. }
      destruct (py_slice (zlen data) (s, e)) as [a k]. cbn [snd] in P. subst k. destruct (py_slice (zlen out) (i, e - s + i)) as [d m].
      destruct (0 =? m); reflexivity. }
    destruct (read_direct col data (s, e) out (i, e - s + i)); [discriminate|reflexivity].
  - inversion X as [? ? Y|? ? Y]; subst; [cbn [fst snd] in Y; lia|]. destruct (e =? s); [apply IH; exact Y|].
    destruct (read_direct _ _ _ _ _); [apply IH; exact Y|reflexivity].
Qed.

(** * Which chunk a range belongs to *)

Lemma assign_length chunks : forall i rs, length (assign_chunks chunks i rs) = length rs.
Proof.
  induction chunks as [|c cs IH]; intros i rs; [apply map_length|]. induction rs as [|r rs IHr]; [reflexivity|].
  rewrite assign_cons_unfold. destruct (chunk_contains c r); [cbn [length]; rewrite IHr; reflexivity|apply IH].
Qed.

Lemma assign_bound chunks : forall i rs, Forall (fun j => j = 0 \/ i <= j < i + length chunks)%nat (assign_chunks chunks i rs).
Proof.
  induction chunks as [|c cs IH]; intros i rs.
  - cbn [assign_chunks]. induction rs; constructor; [left; reflexivity|assumption].
  - induction rs as [|r rs IHr]; [constructor|]. rewrite assign_cons_unfold. destruct (chunk_contains c r).
    + constructor; [right; cbn [length]; lia|exact IHr].
    + eapply Forall_impl; [|apply IH]. cbn beta. cbn [length]. lia.
Qed.

Lemma assign_outside chunks : forall i rs1 r rs2, Forall (fun ch => snd ch < snd r) chunks ->
  nth_error (assign_chunks chunks i (rs1 ++ r :: rs2)) (length rs1) = Some O.
Proof.
  induction chunks as [|c cs IH]; intros i rs1 r rs2 F.
  - cbn [assign_chunks]. rewrite map_app. cbn [map]. rewrite nth_error_app2; rewrite map_length; [|lia]. rewrite Nat.sub_diag. reflexivity.
  - inversion F as [|? ? Fc F']; subst. induction rs1 as [|q rs1 IHr]; cbn [app]; rewrite assign_cons_unfold.
    + replace (chunk_contains c r) with false; [apply (IH (S i) [] r rs2 F')|].
      symmetry. apply not_true_iff_false. rewrite chunk_contains_iff. lia.
    + destruct (chunk_contains c q); [exact IHr|]. apply (IH (S i) (q :: rs1) r rs2 F').
Qed.

Lemma adjust_all chunks : chunks <> [] -> Forall (fun ch => fst ch <= snd ch) chunks -> forall idx rs run, rs <> [] ->
  length idx = length rs -> Forall (fun j => (j < length chunks)%nat) idx -> 0 <= run ->
  exists adj, adjust_ranges chunks idx rs run = Ok adj
    /\ Forall2 (fun r a => snd a - fst a = snd r - fst r) rs adj
    /\ forall p r ch, nth_error rs p = Some r -> nth_error idx p = Some O -> nth_error chunks 0 = Some ch ->
         exists a rho, nth_error adj p = Some a /\ 0 <= rho /\ fst a = fst r - fst ch + rho /\ snd a = snd r - fst ch + rho.
Proof.
  intros Ne W. induction idx as [|j idx IH]; intros [|r rs] run Nr Len B R0; try discriminate; [congruence|].
  inversion B as [|? ? Bj B']; subst. cbn [adjust_ranges].
  destruct (nth_error chunks j) as [t|] eqn:T; [|apply nth_error_None in T; lia].
  assert (Wt : fst t <= snd t) by (rewrite Forall_forall in W; apply W; apply nth_error_In in T; exact T).
  assert (Here : forall ch, nth_error chunks 0 = Some ch -> j = O -> ch = t) by (intros ch C ->; congruence).
  destruct idx as [|k idx].
  - destruct rs; [|discriminate]. eexists. split; [reflexivity|]. split; [constructor; [cbn [fst snd]; lia|constructor]|].
    intros [|p] q ch Q I C; [|destruct p; discriminate]. cbn in Q, I. injection Q as <-. injection I as ->.
    rewrite (Here ch C eq_refl). eexists. exists run. split; [reflexivity|]. split; [exact R0|]. cbn [fst snd]. lia.
  - destruct rs as [|r' rs]; [discriminate|].
    destruct (IH (r' :: rs) (if (j <? k)%nat then run + (snd t - fst t) else run)) as (adj & E & F & P);
      [discriminate|cbn in *; lia|exact B'|destruct (j <? k)%nat; lia|].
    rewrite E. eexists. split; [reflexivity|]. split; [constructor; [cbn [fst snd]; lia|exact F]|].
    intros [|p] q ch Q I C.
    + cbn in Q, I. injection Q as <-. injection I as ->. rewrite (Here ch C eq_refl). eexists. exists run. split; [reflexivity|].
      split; [exact R0|]. cbn [fst snd]. lia.
    + cbn [nth_error] in Q, I. exact (P p q ch Q I C).
Qed.

Lemma take_one_error {B} (l : list B) i e : take_one l i = Err e -> e = UndefinedRead.
Proof.
  unfold take_one. destruct (_ <? 0); [congruence|]. destruct (nth_error _ _); congruence.
Qed.

Lemma all_taken_error {B} (l : list B) idx y : In y idx -> zlen l <= y -> all_ok (map (take_one l) idx) = Err UndefinedRead.
Proof.
  intros I Y. assert (T : take_one l y = Err UndefinedRead).
  { unfold take_one. assert (0 <= zlen l) by apply zlen_nonneg. replace (y <? 0) with false by (symmetry; apply Z.ltb_ge; lia).
    replace (y <? 0) with false by (symmetry; apply Z.ltb_ge; lia). destruct (nth_error l (Z.to_nat y)) eqn:E; [|reflexivity].
    assert (nth_error l (Z.to_nat y) <> None) as N by congruence. apply nth_error_Some in N. unfold zlen in Y. lia. }
  induction idx as [|i idx IH]; [destruct I|]. cbn [map all_ok]. destruct (take_one l i) as [x|e] eqn:E.
  - destruct I as [->|I]; [congruence|]. rewrite (IH I). reflexivity.
  - apply take_one_error in E. subst e. reflexivity.
Qed.

Lemma rev_head {A} (l : list A) d : l <> [] -> nth_error (rev l) 0 = Some (last l d).
Proof.
  induction l as [|x l IH]; intro H; [congruence|]. destruct l as [|y l]; [reflexivity|]. rewrite last_cons2, <- IH by discriminate.
  change (rev (x :: y :: l)) with (rev (y :: l) ++ [x]). apply nth_error_app1. rewrite rev_length. cbn. lia.
Qed.

(** Chunks that are not reversed: the compiled code reads behind its array. *)
Lemma extract_outside {B} (l : list B) acc ranges r n : Sorted apart acc -> acc <> [] -> Forall (fun ch => fst ch <= snd ch /\ snd ch <= n) acc ->
  Forall (fun r => fst r <= snd r) ranges -> In r ranges -> fst r < snd r -> n < snd r -> zlen l = total_rows acc ->
  extract_ranges l (rev acc) ranges = Err UndefinedRead.
Proof.
  intros S Ne F Wr I Lr Out L. unfold extract_ranges. destruct acc as [|a acc]; [congruence|]. set (whole := a :: acc) in *.
  assert (W1 : Forall (fun ch => fst ch <= snd ch) whole) by (eapply Forall_impl; [|exact F]; cbn beta; tauto).
  assert (Nr : rev whole <> []) by (intro E; apply (f_equal (@length _)) in E; rewrite rev_length in E; discriminate).
  assert (Hd : nth_error (rev whole) 0 = Some (last whole a)).
  { apply rev_head. discriminate. }
  pose proof (chunks_total _ S W1 a acc eq_refl) as T.
  assert (An : snd a <= n) by (inversion F; subst; tauto).
  pose proof I as I'. apply in_split in I'. destruct I' as (rs1 & rs2 & E).
  destruct (adjust_all (rev whole) Nr ltac:(apply Forall_rev; exact W1) (assign_chunks (rev whole) 0 ranges) ranges 0) as (adj & Ea & Fa & Pa).
  { intros ->. destruct I. }
  { apply assign_length. }
  { eapply Forall_impl; [|apply assign_bound]. cbn beta. rewrite rev_length. unfold whole. cbn [length]. lia. }
  { lia. }
  rewrite Ea. cbn [bind].
  assert (Wa : Forall (fun r => fst r <= snd r) adj).
  { clear -Fa Wr. induction Fa as [|x y xs ys H _ IH]; [constructor|]. inversion Wr; subst. constructor; [lia|apply IH; assumption]. }
  rewrite expand_ranges_spec by exact Wa. cbn [bind].
  destruct (Pa (length rs1) r (last whole a)) as (b & rho & Nb & R0 & B1 & B2).
  { rewrite E, nth_error_app2, Nat.sub_diag by lia. reflexivity. }
  { rewrite E. apply assign_outside. apply Forall_rev. eapply Forall_impl; [|exact F]. cbn beta. lia. }
  { exact Hd. }
  apply (all_taken_error l _ (snd b - 1)).
  - unfold indices_of. apply in_flat_map. exists b. split; [apply nth_error_In in Nb; exact Nb|]. apply In_zrange. lia.
  - unfold whole in *. lia.
Qed.

(** * Rows behind the end of a chunked dataset *)

Lemma chunked_forward {A B} (col : A -> B) (data : list A) c rs sz r :
  0 < c -> Forall (fun r => 0 <= fst r /\ fst r <= snd r) rs -> In r rs -> fst r < snd r -> zlen data < snd r ->
  Forall (fun ch => fst ch <= snd ch) (fold_left (chunk_step c (zlen data)) rs []) ->
  read_ranges_chunked col data c rs sz = Err UndefinedRead.
Proof.
  intros C W I Lr Out Up. unfold read_ranges_chunked, get_chunk_ranges.
  assert (W2 : Forall (fun r => 0 <= fst r /\ 0 <= snd r) rs) by (eapply Forall_impl; [|exact W]; cbn beta; lia).
  destruct (chunks_inv (zlen data) c rs C (zlen_nonneg data) W2 [] ltac:(constructor) ltac:(constructor)) as (F & S & Ne).
  set (acc := fold_left (chunk_step c (zlen data)) rs []) in *.
  assert (Nacc : acc <> []) by (apply Ne; left; intros ->; destruct I).
  assert (F2 : Forall (fun ch => fst ch <= snd ch /\ snd ch <= zlen data) acc).
  { apply Forall_forall. intros ch J. rewrite Forall_forall in Up, F. pose proof (Up ch J) as X1. pose proof (F ch J) as F1. cbn beta in X1, F1. lia. }
  assert (Bd : Forall (in_bounds (zlen data)) (rev acc)).
  { apply Forall_rev. apply Forall_forall. intros ch J. rewrite Forall_forall in F, F2. pose proof (F ch J). pose proof (F2 ch J). unfold in_bounds. cbn beta in *. lia. }
  assert (T : total_rows (rev acc) = total_rows acc).
  { unfold total_rows. clear. induction acc as [|x acc IH]; [reflexivity|]. cbn [rev]. rewrite map_app, sumZ_app, IH. cbn [map]. rewrite !sumZ_cons. change (sumZ []) with 0. lia. }
  pose proof (total_rows_nonneg _ (in_bounds_wf _ _ Bd)) as Tn. fold (total_rows (rev acc)). rewrite np_empty_ok by exact Tn. cbn [bind].
  pose proof (read_loop_spec col data (rev acc) [] (repeat None (Z.to_nat (total_rows (rev acc)))) Bd) as R. cbn [map app] in R.
  change (zlen (@nil B)) with 0 in R. rewrite R by (unfold zlen; rewrite repeat_length; lia). cbn [bind].
  rewrite skipn_repeat, Nat.sub_diag. cbn [repeat]. rewrite app_nil_r.
  apply (extract_outside _ acc rs r (zlen data) S Nacc F2); try assumption.
  - eapply Forall_impl; [|exact W]. cbn beta. tauto.
  - rewrite zlen_map, all_rows_length by exact Bd. exact T.
Qed.

(** They are never delivered. *)
Theorem C116_chunked_behind : forall (A B : Type) (col : A -> B) (data : list A) (chunk_size : Z) (ranges : list (Z * Z)) (size : Z) r,
  0 < chunk_size -> Forall (fun r => 0 <= fst r /\ fst r <= snd r) ranges -> In r ranges -> fst r < snd r -> zlen data < snd r ->
  is_ok (read_ranges_chunked col data chunk_size ranges size) = false.
Proof.
  intros A B col data c rs sz r C W I Lr Out.
  destruct (Forall_dec (fun ch : range => fst ch <= snd ch) (fun ch => Z_le_dec (fst ch) (snd ch)) (fold_left (chunk_step c (zlen data)) rs [])) as [X|X].
  { rewrite (chunked_forward col data c rs sz r) by assumption. reflexivity. }
  unfold read_ranges_chunked, get_chunk_ranges.
  assert (W2 : Forall (fun r => 0 <= fst r /\ 0 <= snd r) rs) by (eapply Forall_impl; [|exact W]; cbn beta; lia).
  destruct (chunks_inv (zlen data) c rs C (zlen_nonneg data) W2 [] ltac:(constructor) ltac:(constructor)) as (F & _ & _).
  set (acc := fold_left (chunk_step c (zlen data)) rs []) in *.
  destruct (np_empty (sumZ (map (fun b => snd b - fst b) (rev acc)))) as [buf|]; [|reflexivity]. cbn [bind].
  assert (X' : Exists (fun ch : range => snd ch < fst ch) (rev acc)).
  { apply neg_Forall_Exists_neg in X; [|intro ch; destruct (Z_le_dec (fst ch) (snd ch)); auto]. apply Exists_exists in X. destruct X as (ch & J & K).
    apply Exists_exists. exists ch. split; [apply -> in_rev; exact J|cbn beta in *; lia]. }
  pose proof (read_reversed col data (rev acc) ltac:(apply Forall_rev; exact F) X' 0 buf) as R.
  destruct (read_loop col data (rev acc) 0 buf); [discriminate|reflexivity].
Qed.

Lemma hi_ge_lo c n r : 0 < c -> fst r <= snd r -> lo c r <= n -> lo c r <= hi c n r.
Proof.
  intros C L N. unfold hi, lo in *. apply Z.min_glb; [|exact N]. pose proof (Z.mul_div_le (fst r) c C). pose proof (Z.mul_div_le (- snd r) c C). nia.
Qed.

(** In order, and with each range beginning in the last chunk at the latest: what is returned was read outside of the array. *)
Theorem C116_chunked_undefined : forall (A B : Type) (col : A -> B) (data : list A) (chunk_size : Z) (ranges : list (Z * Z)) (size : Z) r,
  0 < chunk_size -> Forall (fun r => 0 <= fst r /\ fst r <= snd r) ranges -> ordered_ranges ranges ->
  Forall (fun r => fst r / chunk_size * chunk_size <= zlen data) ranges ->
  In r ranges -> fst r < snd r -> zlen data < snd r ->
  read_ranges_chunked col data chunk_size ranges size = Err UndefinedRead.
Proof.
  intros A B col data c rs sz r C W O Lo I Lr Out. apply (chunked_forward col data c rs sz r C W I Lr Out).
  assert (Up : forall l acc, ordered_ranges l -> Forall (fun r => 0 <= fst r /\ fst r <= snd r) l -> Forall (fun r => lo c r <= zlen data) l ->
            Forall (fun ch => fst ch <= snd ch) acc ->
            (forall ch q, hd_error acc = Some ch -> In q l -> snd ch <= hi c (zlen data) q) ->
            Forall (fun ch => fst ch <= snd ch) (fold_left (chunk_step c (zlen data)) l acc)).
  { clear -C. intros l. induction l as [|q l IH]; intros acc O W L F H; [exact F|].
    inversion O as [|? ? O' Oq]; subst. inversion W as [|? ? (W1 & W2) W']; subst. inversion L as [|? ? Lq L']; subst.
    rewrite Forall_forall in Oq. cbn [fold_left]. pose proof (hi_ge_lo c (zlen data) q C W2 Lq) as HL.
    apply IH; [assumption|assumption|assumption| |].
    - unfold chunk_step. fold (lo c q). fold (hi c (zlen data) q). destruct acc as [|(l0, u0) older]; [constructor; [exact HL|constructor]|].
      destruct (u0 <? lo c q); [constructor; [exact HL|exact F]|]. inversion F as [|? ? F1 F2]; subst. constructor; [|exact F2].
      pose proof (H (l0, u0) q eq_refl (or_introl eq_refl)) as Hq. cbn [fst snd] in *. lia.
    - intros ch q' E J. assert (M : hi c (zlen data) q <= hi c (zlen data) q') by (apply hi_mono; [exact C|apply Oq; exact J]).
      unfold chunk_step in E. fold (lo c q) in E. fold (hi c (zlen data) q) in E. destruct acc as [|(l0, u0) older]; [|destruct (u0 <? lo c q)];
        injection E as <-; cbn [snd]; exact M. }
  apply Up; [assumption|assumption|exact Lo|constructor|]. intros ch q E. discriminate.
Qed.

(** * Cases *)

(** A catalogue of four rows in which rows 3, 4 and 5 are asked for: row 3 three times if it is contiguous, rows from outside of
    the array if it has chunks. *)
Theorem C116_last_row_repeated_refuted :
  let rows := [10; 11; 12; 13] in
  read_ranges_unchunked (fun x => x) rows (ranges_from_array [0; 3; 4; 5]) 4 = Ok [Some 10; Some 13; Some 13; Some 13]
  /\ read_ranges_chunked (fun x => x) rows 2 (ranges_from_array [0; 3; 4; 5]) 4 = Err UndefinedRead
  /\ read_ranges_unchunked (fun x => x) rows (ranges_from_array [0; 2; 3; 4]) 4 = Err TypeError
  /\ read_ranges_unchunked (fun x => x) rows (ranges_from_array [0; 4]) 2 = Err TypeError.
Proof. repeat split. Qed.

(** Rows counted from the end: they work up to the last but one, and around zero anything is possible. *)
Theorem C116_negative_rows_refuted :
  let rows := [10; 11; 12; 13] in
  read_ranges_unchunked (fun x => x) rows (ranges_from_array [-3; -2]) 2 = Ok [Some 11; Some 12]
  /\ read_ranges_unchunked (fun x => x) rows (ranges_from_array [-1]) 1 = Err TypeError
  /\ read_ranges_unchunked (fun x => x) [10; 11] (ranges_from_array [-1; 0; 1]) 3 = Ok [Some 11; Some 11; Some 11]
  /\ read_ranges_chunked (fun x => x) [10; 11; 12; 13; 14; 15; 16] 4 (ranges_from_array [-1; 0; 1]) 3 = Ok [Some 13; Some 13; Some 13].
Proof. repeat split. Qed.

Example C116_example : exists data idx x,
  StronglySorted Z.lt idx /\ Forall (fun i => 0 <= i) idx /\ In x idx /\ zlen data <= x
  /\ idx = [1] ++ zrange (zlen data - 1) 6 /\ 0 < zlen data < 6 /\ ~ In (zlen data - 2) [1]
  /\ rows_are (fun x => x) data ([1] ++ repeat (zlen data - 1) 3) [Some 11; Some 13; Some 13; Some 13]
  /\ Forall (fun r => fst r / 2 * 2 <= zlen data) (ranges_from_array [1; 3; 4]) /\ ordered_ranges (ranges_from_array [1; 3; 4])
  /\ read_ranges_chunked (fun x => x) data 2 (ranges_from_array [1; 3; 4]) 3 = Err UndefinedRead.
Proof.
  exists [10; 11; 12; 13], [1; 3; 4; 5], 4. split; [repeat constructor|]. split; [repeat constructor; lia|]. split; [cbn; tauto|].
  split; [cbn; lia|]. split; [reflexivity|]. split; [cbn; lia|]. split; [cbn; lia|]. split.
  { do 4 (constructor; [split; [cbn; lia|eexists; split; reflexivity]|]). constructor. }
  split; [repeat constructor; cbn; lia|]. split; [|reflexivity]. repeat constructor; cbn; lia.
Qed.

Print Assumptions C116_contiguous.
Print Assumptions C116_rows_behind.
Print Assumptions C116_chunked_behind.
Print Assumptions C116_chunked_undefined.
Print Assumptions C116_last_row_repeated_refuted.
Print Assumptions C116_negative_rows_refuted.

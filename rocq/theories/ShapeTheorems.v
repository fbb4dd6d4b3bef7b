(** Property C117: datasets with any number of axes. *)
From Coq Require Import List ZArith Lia Bool Sorted.
From Verif Require Import Base BaseLemmas RangesModel RangesSpec RangesProofs ChunkProofs ChunkRangeProofs ReaderModel ReaderProofs
  ShapeModel ShapeSpec ShapeProofs.
Import ListNotations.
Open Scope Z_scope.

(** * What is read at once *)

Definition blocks {V} (set : ndset V) (rs : list range) : list range :=
  match nd_chunk set with
  | None => rs
  | Some c => if (0 <? zlen rs) && (sumZ (map (fun b => snd b - fst b) rs) <? 500000 * zlen rs)
              then get_chunk_ranges rs c (zlen (nd_rows set)) else rs
  end.

Section Read.
  Context {V : Type} (set : ndset V) (column : option nat) (rs : list range) (dst : list Z).
  Hypothesis W : wf_ndset set.
  Hypothesis Wc : no_column (nd_tail set) column = false.
  Hypothesis Wl : (length dst <= 1)%nat.
  Hypothesis Wp : Forall (fun d => 1 <= d) dst.
  Hypothesis B : Forall (in_bounds (zlen (nd_rows set))) rs.
  Hypothesis O : ordered_ranges rs.
  Let src := slab_axes (nd_tail set) column.
  Let n := zlen (nd_rows set).

  Lemma blocks_in : Forall (in_bounds n) (blocks set rs).
  Proof.
    clear Wl Wp Wc src dst column.
    unfold blocks. destruct (nd_chunk set) as [c|] eqn:E; [|exact B]. destruct (_ && _); [|exact B].
    destruct W as (_ & _ & Hc). unfold get_chunk_ranges. apply Forall_rev.
    destruct (fold_chunked c n rs (Hc c E) B O) as [K _ _ _ _]. eapply Forall_impl; [|exact K].
    intros [x y] (A1 & A2 & A3 & _). repeat split; assumption.
  Qed.

  (** The blocks of a chunked read. *)
  Lemma blocks_cover r : In r rs -> exists b, In b (blocks set rs) /\ fst b <= fst r /\ snd r <= snd b.
  Proof.
    clear Wl Wp Wc src dst column.
    intros I. unfold blocks. destruct (nd_chunk set) as [c|] eqn:E; [|exists r; split; [assumption|lia]].
    destruct (_ && _); [|exists r; split; [assumption|lia]]. destruct W as (_ & _ & Hc). specialize (Hc c E).
    destruct (fold_chunked c n rs Hc B O) as [_ _ K _ _]. destruct (K r I) as (b & Ib & L & H). exists b.
    split; [apply -> in_rev; exact Ib|]. pose proof (lo_le c r Hc). rewrite Forall_forall in B. destruct (B r I) as (_ & _ & Bn).
    pose proof (hi_ge c n r Hc Bn). lia.
  Qed.

  Lemma nd_fit : prodZ src = prodZ dst -> (forall b, In b (blocks set rs) -> fst b < snd b -> fit src dst (snd b - fst b)) ->
    read_ranges_nd set column rs (total_rows rs) dst = Ok (map (map Some) (all_rows (slab (nd_tail set) column) (nd_rows set) rs)).
  Proof.
    intros P F. pose proof blocks_in as BB. destruct W as (W1 & W2 & W3).
    assert (T := total_rows_nonneg _ (in_bounds_wf _ _ B)).
    assert (R : map (map Some) (all_rows (slab (nd_tail set) column) (nd_rows set) rs)
              = map (conv (prodZ dst)) (map Some (all_rows (slab (nd_tail set) column) (nd_rows set) rs))) by (rewrite map_map; reflexivity).
    assert (U : (forall b, In b rs -> fst b < snd b -> fit src dst (snd b - fst b)) ->
      (do output <- np_empty_nd (total_rows rs) dst; read_loop_nd (nd_tail set) column (nd_rows set) rs dst 0 output)
      = Ok (map (map Some) (all_rows (slab (nd_tail set) column) (nd_rows set) rs))).
    { intros F'. rewrite (empty_nd dst). pose proof (unchunked_exact (slab (nd_tail set) column) (nd_rows set) rs B) as U.
      unfold read_ranges_unchunked in U. rewrite np_empty_ok in * by exact T. cbn [mapres bind] in *.
      rewrite (loop_fit (nd_tail set) column (nd_rows set) dst W1 Wc W2 Wl Wp rs F' P B 0) by (unfold zlen; rewrite ?repeat_length; lia).
      rewrite U, R. reflexivity. }
    unfold read_ranges_nd. fold (total_rows rs). unfold blocks in F, BB.
    destruct (nd_chunk set) as [c|] eqn:E; [|apply U; exact F]. fold (total_rows rs) in F, BB.
    destruct ((0 <? zlen rs) && (total_rows rs <? 500000 * zlen rs)) eqn:A; [|apply U; exact F].
    assert (N : rs <> []) by (intros ->; discriminate A).
    pose proof (chunked_exact (slab (nd_tail set) column) (nd_rows set) c rs 0 (W3 c eq_refl) N B O) as C.
    unfold read_ranges_chunked in C. set (cr := get_chunk_ranges rs c (zlen (nd_rows set))) in *. fold (total_rows cr) in *.
    assert (T' := total_rows_nonneg _ (in_bounds_wf _ _ BB)).
    rewrite (empty_nd dst). rewrite np_empty_ok in * by exact T'. cbn [mapres bind] in *.
    rewrite (loop_fit (nd_tail set) column (nd_rows set) dst W1 Wc W2 Wl Wp cr F P BB 0) by (unfold zlen; rewrite ?repeat_length; lia).
    destruct (read_loop _ _ cr 0 _) as [out|]; cbn [mapres bind] in *; [|discriminate].
    rewrite extract_map, C, R. reflexivity.
  Qed.

  Lemma nd_unfit : (prodZ src = prodZ dst \/ forall k, 1 <= k -> ~ fit src dst k) ->
    (exists b, In b (blocks set rs) /\ fst b < snd b /\ ~ fit src dst (snd b - fst b)) ->
    read_ranges_nd set column rs (total_rows rs) dst = Err TypeError.
  Proof.
    intros P (b & I & L & F). pose proof blocks_in as BB. destruct W as (W1 & W2 & W3).
    assert (T := total_rows_nonneg _ (in_bounds_wf _ _ B)).
    assert (G : forall l, In b l -> Forall (in_bounds n) l ->
      (do output <- np_empty_nd (total_rows l) dst; read_loop_nd (nd_tail set) column (nd_rows set) l dst 0 output) = Err TypeError).
    { intros l Il Bl. rewrite (empty_nd dst). assert (Tl := total_rows_nonneg _ (in_bounds_wf _ _ Bl)).
      rewrite np_empty_ok by exact Tl. cbn [mapres bind]. destruct P as [P|P].
      - apply (loop_unfit (nd_tail set) column (nd_rows set) dst W1 Wc W2 Wl Wp l b P Bl Il L F 0); unfold zlen; rewrite ?repeat_length; lia.
      - apply (loop_none (nd_tail set) column (nd_rows set) dst Wc Wl l b P Bl Il L 0); unfold zlen; rewrite ?map_length, ?repeat_length; lia. }
    unfold read_ranges_nd. fold (total_rows rs). unfold blocks in I, BB.
    destruct (nd_chunk set) as [c|]; [|now apply G]. fold (total_rows rs) in I, BB.
    destruct ((0 <? zlen rs) && (total_rows rs <? 500000 * zlen rs)); [|now apply G].
    specialize (G _ I BB). fold n in G, I |- *. fold (total_rows (get_chunk_ranges rs c n)).
    destruct (np_empty_nd (total_rows (get_chunk_ranges rs c n)) dst) as [out|]; cbn [bind] in *; [|injection G as ->; reflexivity].
    fold n. rewrite G. reflexivity.
  Qed.

  (** Blocks of one row. *)
  Lemma blocks_single : asks set rs -> one_by_one set rs <-> forall b, In b (blocks set rs) -> snd b - fst b <= 1.
  Proof.
    clear Wl Wp Wc src dst column.
    intros (Hr & Hn). assert (BB := B). rewrite Forall_forall in BB. split.
    - intros (S & C) b Ib. rewrite Forall_forall in S. unfold blocks in Ib. destruct (nd_chunk set) as [c|] eqn:E; [|now apply S].
      destruct (_ && _) in Ib; [|now apply S]. destruct W as (_ & _ & Hc). specialize (Hc c E). destruct Hn as [|Hn]; [discriminate|].
      destruct (fold_chunked c n rs Hc B O) as [_ _ _ K _]. apply in_rev in Ib.
      assert (Sel : forall x, fst b <= x < snd b -> In x (indices_of rs)).
      { intros x X. destruct (K b x Ib X) as (r & Ir & Lr). rewrite Forall_forall in Hn.
        destruct (touched c n r x Hc (BB r Ir) (Hn r Ir) Lr) as (y & Y & D).
        assert (Iy : In y (indices_of rs)) by (apply in_flat_map; exists r; split; [exact Ir|now apply In_zrange]).
        destruct (C c y eq_refl Iy) as (_ & A). assert (x = y) as ->; [|exact Iy].
        apply A; [|symmetry; exact D]. pose proof (hi_le c n r). destruct (BB r Ir) as (B0 & _).
        assert (0 <= lo c r) by (unfold lo; apply Z.mul_nonneg_nonneg; [apply Z.div_pos; lia|lia]). fold n. lia. }
      destruct (Z_le_dec (snd b - fst b) 1) as [|G]; [assumption|exfalso].
      destruct (C c (fst b) eq_refl (Sel (fst b) ltac:(lia))) as (A & _). apply A, Sel. lia.
    - intros S. split.
      + apply Forall_forall. intros r I. destruct (blocks_cover r I) as (b & Ib & L1 & L2). specialize (S b Ib). lia.
      + intros c i E I.
        assert (Q : (0 <? zlen rs) && (sumZ (map (fun b => snd b - fst b) rs) <? 500000 * zlen rs) = true).
        { assert (S' : Forall (fun r => snd r - fst r <= 1) rs).
          { apply Forall_forall. intros r J. destruct (blocks_cover r J) as (b & Ib & L1 & L2). specialize (S b Ib). lia. }
          destruct Hr as (r & J & _). clear -S' J. assert (sumZ (map (fun b => snd b - fst b) rs) <= zlen rs).
          { clear J. induction S' as [|q l Q _ IH]; [cbn; lia|]. cbn [map]. rewrite sumZ_cons, zlen_cons. lia. }
          assert (0 < zlen rs) by (destruct rs; [destruct J|rewrite zlen_cons; pose proof (zlen_nonneg l); lia]).
          apply andb_true_iff. split; [apply Z.ltb_lt; assumption|apply Z.ltb_lt; lia]. }
        unfold blocks in S. rewrite E, Q in S. destruct W as (_ & _ & Hc). specialize (Hc c E).
        fold n in S. destruct (fold_chunked c n rs Hc B O) as [_ Srt K _ _].
        assert (Cov : forall x, In x (indices_of rs) -> exists b, In b (fold_left (chunk_step c n) rs []) /\ fst b <= x / c * c
                        /\ Z.min ((x / c + 1) * c) n <= snd b).
        { intros x X. apply in_flat_map in X as (r & Ir & Lr). apply In_zrange in Lr. destruct (K r Ir) as (b & Ib & L1 & L2).
          exists b. split; [exact Ib|]. split.
          - etransitivity; [exact L1|]. unfold lo. apply Z.mul_le_mono_nonneg_r; [lia|]. apply Z.div_le_mono; lia.
          - etransitivity; [|exact L2]. unfold hi. apply Z.min_le_compat_r. apply Z.mul_le_mono_nonneg_r; [lia|].
            assert (X1 : - snd r <= - (x + 1)) by lia. apply (Z.div_le_mono _ _ c Hc) in X1.
            assert (X2 : - (x + 1) / c = - (x / c + 1)).
            { symmetry. apply (Z.div_unique_pos _ _ _ (c - 1 - x mod c)); [pose proof (Z.mod_pos_bound x c Hc); lia|].
              pose proof (Z.div_mod x c ltac:(lia)). lia. }
            lia. }
        destruct (Cov i I) as (b & Ib & L1 & L2). assert (S1 := S b (proj1 (in_rev _ _) Ib)).
        assert (Ii : 0 <= i < n).
        { apply in_flat_map in I as (r & Ir & Lr). apply In_zrange in Lr. destruct (BB r Ir) as (Y1 & Y2 & Y3). fold n in Y3. lia. }
        pose proof (Z.div_mod i c ltac:(lia)) as Di. pose proof (Z.mod_pos_bound i c Hc) as Mi. split.
        * intros I1. destruct (Cov (i + 1) I1) as (b1 & Ib1 & M1 & M2).
          assert (Ii1 : i + 1 < n).
          { apply in_flat_map in I1 as (r & Ir & Lr). apply In_zrange in Lr. destruct (BB r Ir) as (Y1 & Y2 & Y3). fold n in Y3. lia. }
          assert (S2 := S b1 (proj1 (in_rev _ _) Ib1)).
          pose proof (Z.div_mod (i + 1) c ltac:(lia)) as Dj. pose proof (Z.mod_pos_bound (i + 1) c Hc) as Mj.
          assert (fst b <= i /\ i + 1 <= snd b) by nia. assert (fst b1 <= i + 1 /\ i + 2 <= snd b1) by nia.
          assert (b = b1 \/ snd b < fst b1 \/ snd b1 < fst b) as [->|[X|X]]; [|lia|lia|lia].
          clear -Srt Ib Ib1. induction Srt as [|q l _ IH F]; [destruct Ib|]. rewrite Forall_forall in F.
          destruct Ib as [<-|Ib], Ib1 as [<-|Ib1]; [now left|right; right; now apply F|right; left; now apply F|now apply IH].
        * intros k Hk D. fold n in Hk. pose proof (Z.div_mod k c ltac:(lia)) as Dk. pose proof (Z.mod_pos_bound k c Hc) as Mk. rewrite D in Dk.
          assert (fst b <= i /\ i + 1 <= snd b) by nia. assert (fst b <= k /\ k + 1 <= snd b) by nia. lia.
  Qed.
End Read.

(** * Rows and columns *)

Lemma column_in_false axes column : column_in axes column -> no_column axes column = false.
Proof. destruct column, axes; cbn; try reflexivity. intros. apply Z.leb_gt. assumption. Qed.

Lemma slab_part {V} tail column (row : list V) : Forall (fun d => 1 <= d) tail -> column_in tail column -> zlen row = prodZ tail ->
  part_of tail column row (slab tail column row).
Proof.
  intros W C L. pose proof (slab_length tail column row W (column_in_false _ _ C) L) as Sl.
  destruct column as [j|], tail as [|d rest]; try reflexivity. cbn [part_of slab slab_axes] in *. split; [exact Sl|].
  inversion W as [|? ? Wd Wr]; subst. pose proof (prodZ_pos _ Wr) as P. intros k K. change (fold_right Z.mul 1 rest) with (prodZ rest) in *.
  rewrite nth_error_firstn, nth_error_skipn by lia. f_equal. nia.
Qed.

Lemma all_rows_shown {V} (set : ndset V) column rs : wf_ndset set -> column_in (nd_tail set) column ->
  Forall (in_bounds (zlen (nd_rows set))) rs ->
  shows set column (indices_of rs) (map (map Some) (all_rows (slab (nd_tail set) column) (nd_rows set) rs)).
Proof.
  intros (W1 & W2 & _) C B. pose proof (all_rows_are (slab (nd_tail set) column) (nd_rows set) rs B) as R.
  unfold rows_are in R. unfold shows. revert R. generalize (all_rows (slab (nd_tail set) column) (nd_rows set) rs) as l. generalize (indices_of rs) as idx.
  intros idx l R. remember (map Some l) as o eqn:E. revert l E. induction R as [|i o idx os (H0 & row & Hr & Ho) _ IH]; intros [|x l] E; try discriminate; [constructor|].
  cbn [map] in E. injection E as E1 E2. cbn [map]. constructor; [|now apply IH]. split; [exact H0|]. rewrite E1 in Ho. injection Ho as ->.
  exists row, (slab (nd_tail set) column row). split; [exact Hr|]. split; [|reflexivity]. apply slab_part; [assumption|assumption|].
  rewrite Forall_forall in W2. apply (W2 row). eapply nth_error_In; exact Hr.
Qed.

Lemma axes_left_slab tail column : slab_axes tail column = axes_left tail column.
Proof. destruct column, tail; reflexivity. Qed.

Lemma ones_dec l : {ones l} + {~ ones l}.
Proof. apply Forall_dec. intros x. apply Z.eq_dec. Qed.

(** Reads for which exactly the single rows fit. *)
Lemma only_single {V} (set : ndset V) column rs dst : wf_ndset set -> column_in (nd_tail set) column ->
  (length dst <= 1)%nat -> Forall (fun d => 1 <= d) dst -> Forall (in_bounds (zlen (nd_rows set))) rs -> ordered_ranges rs -> asks set rs ->
  prodZ (slab_axes (nd_tail set) column) = prodZ dst ->
  (forall n, 1 <= n -> fit (slab_axes (nd_tail set) column) dst n <-> n = 1) ->
  (one_by_one set rs -> exists out, read_ranges_nd set column rs (total_rows rs) dst = Ok out /\ shows set column (indices_of rs) out)
  /\ (~ one_by_one set rs -> read_ranges_nd set column rs (total_rows rs) dst = Err TypeError).
Proof.
  intros W C L P B O A E F. assert (C' := column_in_false _ _ C). pose proof (blocks_single set rs W B O A) as S. split.
  - intros H. eexists. split; [|apply all_rows_shown; assumption]. apply (nd_fit set column rs dst W C' L P B O E).
    intros b I Lb. apply F; [lia|]. pose proof (proj1 S H b I). lia.
  - intros H. apply (nd_unfit set column rs dst W C' L P B O); [now left|].
    destruct (Exists_dec (fun b : range => 1 < snd b - fst b) (blocks set rs)) as [X|X]; [intros b; apply Z_lt_dec| |].
    + apply Exists_exists in X as (b & I & Lb). exists b. split; [exact I|]. split; [lia|]. rewrite F by lia. lia.
    + exfalso. apply H, S. intros b I. destruct (Z_le_dec (snd b - fst b) 1); [assumption|]. exfalso. apply X, Exists_exists. exists b. split; [exact I|lia].
Qed.

Lemma none_fits {V} (set : ndset V) column rs dst : wf_ndset set -> column_in (nd_tail set) column ->
  (length dst <= 1)%nat -> Forall (fun d => 1 <= d) dst -> Forall (in_bounds (zlen (nd_rows set))) rs -> ordered_ranges rs -> asks set rs ->
  (forall n, 1 <= n -> ~ fit (slab_axes (nd_tail set) column) dst n) ->
  read_ranges_nd set column rs (total_rows rs) dst = Err TypeError.
Proof.
  intros W C L P B O ((r & I & Lr) & _) F. apply (nd_unfit set column rs dst W (column_in_false _ _ C) L P B O); [now right|].
  destruct (blocks_cover set rs W B O r I) as (b & Ib & L1 & L2). exists b. split; [exact Ib|]. split; [lia|]. apply F. lia.
Qed.

(** * C117 *)

(** Without a mask everything is read, however many axes there are. *)
Theorem C117_unmasked : forall (V : Type) (set : ndset V) (column : option nat),
  wf_ndset set -> column_in (nd_tail set) column ->
  exists out, read_nd None column set = Ok out /\ shows set column (zrange 0 (zlen (nd_rows set))) out.
Proof.
  intros V set column W C. cbn [read_nd]. rewrite (column_in_false _ _ C). eexists. split; [reflexivity|].
  assert (B : Forall (in_bounds (zlen (nd_rows set))) [(0, zlen (nd_rows set))]).
  { constructor; [|constructor]. pose proof (zlen_nonneg (nd_rows set)). repeat split; cbn; lia. }
  pose proof (all_rows_shown set column _ W C B) as S. cbn [indices_of flat_map fst snd] in S. rewrite app_nil_r in S.
  unfold all_rows in S. cbn [flat_map] in S. rewrite app_nil_r in S. unfold slice_rows in S. cbn [fst snd] in S.
  rewrite Z.sub_0_r in S. change (Z.to_nat 0) with 0%nat in S. cbn [skipn] in S. unfold zlen in S at 2. rewrite Nat2Z.id, firstn_all, map_map in S. exact S.
Qed.

(** With a mask a dataset of three or more axes can only be read row by row, and only if the further axes do not matter. *)
Theorem C117_masked : forall (V : Type) (set : ndset V) (column : option nat) (ranges : list (Z * Z)),
  wf_ndset set -> (2 <= length (nd_tail set))%nat -> column_in (nd_tail set) column ->
  Forall (in_bounds (zlen (nd_rows set))) ranges -> ordered_ranges ranges -> asks set ranges ->
  let read := read_nd (Some (ranges, total_rows ranges)) column set in
  (ones (axes_left (nd_tail set) column) /\ one_by_one set ranges -> exists out, read = Ok out /\ shows set column (indices_of ranges) out)
  /\ (~ (ones (axes_left (nd_tail set) column) /\ one_by_one set ranges) -> read = Err TypeError).
Proof.
  intros V set column rs W T C B O A read. unfold read, read_nd. clear read.
  assert (W' := W). destruct W' as (W1 & _ & _). assert (NE : nd_tail set <> []) by (intros E; rewrite E in T; cbn in T; lia).
  assert (Ws := slab_axes_positive (nd_tail set) column W1).
  set (dst := match nd_tail set with | [] => [] | d :: _ => match column with Some _ => [] | None => [d] end end).
  assert (Fd : Forall (fun d => 1 <= d) dst) by (unfold dst; destruct (nd_tail set), column; try constructor; inversion W1; subst; [assumption|constructor]).
  assert (Ld : (length dst <= 1)%nat) by (unfold dst; destruct (nd_tail set), column; cbn; lia).
  assert (F : forall n, 1 <= n -> fit (slab_axes (nd_tail set) column) dst n <-> n = 1 /\ ones (axes_left (nd_tail set) column)).
  { intros n N. rewrite <- axes_left_slab. unfold dst. destruct (nd_tail set) as [|d1 [|d2 rest]]; [congruence|cbn in T; lia|].
    destruct column as [j|].
    - cbn [slab_axes]. cbn [slab_axes] in Ws. apply fit_scalar; [assumption|assumption|discriminate].
    - cbn [slab_axes] in *. destruct (@exists_last _ (d2 :: rest)) as (mid & last & E); [discriminate|]. rewrite E in *.
      change (d1 :: mid ++ [last]) with ((d1 :: mid) ++ [last]) in *. apply Forall_app in Ws as (Wm & Wl).
      rewrite fit_more by (assumption || discriminate). unfold ones. rewrite Forall_app. inversion Wl; subst. split.
      + intros (-> & Q & R). split; [reflexivity|]. split; [assumption|]. inversion Q; subst. constructor; [lia|constructor].
      + intros (-> & Q & R). split; [reflexivity|]. split; [assumption|]. left. now inversion R. }
  assert (Q : forall (b : res (list (list (option V)))), b = read_ranges_nd set column rs (total_rows rs) dst ->
     (ones (axes_left (nd_tail set) column) /\ one_by_one set rs -> exists out, b = Ok out /\ shows set column (indices_of rs) out)
     /\ (~ (ones (axes_left (nd_tail set) column) /\ one_by_one set rs) -> b = Err TypeError)).
  { intros b ->. destruct (ones_dec (axes_left (nd_tail set) column)) as [D|D].
    - assert (E : prodZ (slab_axes (nd_tail set) column) = prodZ dst).
      { rewrite axes_left_slab. rewrite (prodZ_ones _ D). unfold dst. destruct (nd_tail set), column; try reflexivity.
        cbn [axes_left] in D. inversion D; subst. reflexivity. }
      destruct (only_single set column rs dst W C Ld Fd B O A E) as (S1 & S2); [intros n N; rewrite (F n N); tauto|].
      split; [intros (_ & H); exact (S1 H)|]. intros H. apply S2. intros G. apply H. split; assumption.
    - split; [intros (H & _); contradiction|]. intros _. apply (none_fits set column rs dst W C Ld Fd B O A). intros n N G. apply (F n N) in G. tauto. }
  apply Q. reflexivity.
Qed.

(** So any axis with two or more elements stands in the way. *)
Theorem C117_masked_refuted : forall (V : Type) (set : ndset V) (column : option nat) (ranges : list (Z * Z)) (d : Z),
  wf_ndset set -> (2 <= length (nd_tail set))%nat -> column_in (nd_tail set) column ->
  Forall (in_bounds (zlen (nd_rows set))) ranges -> ordered_ranges ranges -> (exists r, In r ranges /\ fst r < snd r) ->
  In d (axes_left (nd_tail set) column) -> 2 <= d ->
  read_nd (Some (ranges, total_rows ranges)) column set = Err TypeError.
Proof.
  intros V set column rs d W T C B O H I D.
  destruct set as [tail chunk rows]. destruct chunk as [c|]; [|apply (C117_masked V _ column rs W T C B O); [split; [exact H|now left]|]].
  2:{ intros (Q & _). unfold ones in Q. rewrite Forall_forall in Q. apply Q in I. lia. }
  assert (W' := W). destruct W' as (W1 & _ & _). cbn [nd_tail] in *. assert (NE : tail <> []) by (intros E; rewrite E in T; cbn in T; lia).
  assert (Ws := slab_axes_positive tail column W1). unfold read_nd. cbn [nd_tail].
  set (dst := match tail with | [] => [] | d :: _ => match column with Some _ => [] | None => [d] end end).
  assert (Fd : Forall (fun d => 1 <= d) dst) by (unfold dst; destruct tail, column; try constructor; inversion W1; subst; [assumption|constructor]).
  assert (Ld : (length dst <= 1)%nat) by (unfold dst; destruct tail, column; cbn; lia).
  assert (F : forall n, 1 <= n -> ~ fit (slab_axes tail column) dst n).
  { intros n N G. rewrite <- axes_left_slab in I. unfold dst in G. destruct tail as [|d1 [|d2 rest]]; [congruence|cbn in T; lia|].
    destruct column as [j|]; cbn [slab_axes] in *.
    - apply fit_scalar in G as (_ & G); [|assumption|assumption|discriminate]. unfold ones in G. rewrite Forall_forall in G. apply G in I. lia.
    - destruct (@exists_last _ (d2 :: rest)) as (mid & last & E); [discriminate|]. rewrite E in *.
      change (d1 :: mid ++ [last]) with ((d1 :: mid) ++ [last]) in *. apply Forall_app in Ws as (Wm & Wl).
      apply fit_more in G as (_ & G & R); [|assumption|assumption|discriminate]. inversion G as [|? ? G1 G2]; subst.
      unfold ones in G. rewrite Forall_forall in G. apply in_app_iff in I as [I|[<-|[]]]; [apply G in I; lia|lia]. }
  destruct H as (r & Ir & Lr). destruct (blocks_cover (mk_ndset tail (Some c) rows) rs W B O r Ir) as (b & Ib & L1 & L2).
  change (read_ranges_nd (mk_ndset tail (Some c) rows) column rs (total_rows rs) dst = Err TypeError).
  apply (nd_unfit (mk_ndset tail (Some c) rows) column rs dst W (column_in_false _ _ C) Ld Fd B O); [now right|].
  exists b. split; [exact Ib|]. split; [lia|]. apply F. lia.
Qed.

(** * Subsets *)

(** [write_subset] makes arrays of at most two axes of every dataset. *)
Theorem C117_subset : forall (V : Type) (set : ndset V) (ranges : list (Z * Z)),
  wf_ndset set -> nd_rows set <> [] ->
  Forall (in_bounds (zlen (nd_rows set))) ranges -> ordered_ranges ranges -> asks set ranges ->
  let written := subset_nd (Some (ranges, total_rows ranges)) set in
  (nd_tail set = [] \/ (exists d, nd_tail set = [d] /\ d <> 1) \/ (ones (removelast (nd_tail set)) /\ one_by_one set ranges) ->
     exists out, written = Ok out /\ shows set None (indices_of ranges) out)
  /\ (nd_tail set <> [] -> (forall d, nd_tail set = [d] -> d = 1) -> ~ (ones (removelast (nd_tail set)) /\ one_by_one set ranges) ->
     written = Err TypeError).
Proof.
  intros V set rs W NR B O A written. unfold written, subset_nd. clear written. destruct (nd_rows set) as [|row0 rows0] eqn:Er; [congruence|].
  rewrite <- Er in *. clear Er NR row0 rows0. assert (W' := W). destruct W' as (W1 & _ & _).
  set (P := prodZ (nd_tail set)). set (dst := if P =? 1 then [] else [P]).
  assert (PP : 1 <= P) by (apply prodZ_pos; exact W1).
  assert (Fd : Forall (fun d => 1 <= d) dst) by (unfold dst; destruct (P =? 1); repeat constructor; lia).
  assert (Ld : (length dst <= 1)%nat) by (unfold dst; destruct (P =? 1); cbn; lia).
  assert (E : prodZ (slab_axes (nd_tail set) None) = prodZ dst).
  { cbn [slab_axes]. fold P. unfold dst. destruct (P =? 1) eqn:Q; [apply Z.eqb_eq in Q; rewrite Q; reflexivity|cbn; lia]. }
  assert (C : column_in (nd_tail set) None) by exact I.
  assert (G : (forall n, fit (slab_axes (nd_tail set) None) dst n) -> exists out, read_ranges_nd set None rs (total_rows rs) dst = Ok out /\ shows set None (indices_of rs) out).
  { intros F. eexists. split; [|apply all_rows_shown; assumption]. apply (nd_fit set None rs dst W (column_in_false _ _ C) Ld Fd B O E). intros; apply F. }
  destruct (nd_tail set) as [|d1 rest] eqn:Et.
  { split; [|congruence]. intros _. apply G. intros n. apply fit_same. }
  assert (F : (rest <> [] \/ d1 = 1) -> forall n, 1 <= n -> fit (d1 :: rest) dst n <-> n = 1 /\ ones (removelast (d1 :: rest))).
  { intros H n N. unfold dst. destruct (P =? 1) eqn:Q.
    - apply Z.eqb_eq in Q. assert (On : ones (d1 :: rest)).
      { clear -Q W1. unfold P in Q. clear P. induction W1 as [|x l X WX IH]; [constructor|]. rewrite prodZ_cons in Q.
        pose proof (prodZ_pos l WX). assert (x = 1 /\ prodZ l = 1) as (-> & Q') by nia. constructor; [reflexivity|now apply IH]. }
      rewrite fit_scalar by (assumption || discriminate). split; intros (-> & _); split; auto.
      unfold ones in *. rewrite Forall_forall in *. intros x X. apply On.
      rewrite (app_removelast_last 0 (l := d1 :: rest)) by discriminate. apply in_app_iff. now left.
    - apply Z.eqb_neq in Q. destruct (@exists_last _ (d1 :: rest)) as (mid & last & El); [discriminate|].
      rewrite El in *. rewrite removelast_last. apply Forall_app in W1 as (Wm & Wl).
      destruct mid as [|m0 mid].
      { cbn [app] in El. injection El as -> ->. exfalso. destruct H as [H|H]; [congruence|]. subst. apply Q. reflexivity. }
      rewrite fit_more by (assumption || discriminate). split; [tauto|]. intros (-> & On). split; [reflexivity|]. split; [assumption|].
      right. unfold P. rewrite El, prodZ_app, (prodZ_ones _ On). change (prodZ [last]) with (last * 1). lia. }
  destruct (list_eq_dec Z.eq_dec rest []) as [->|NE].
  - destruct (Z.eq_dec d1 1) as [->|N1].
    + destruct (only_single set None rs dst) as (S1 & S2); try assumption; try (rewrite Et; assumption).
      { intros n N. rewrite Et. cbn [slab_axes]. rewrite (F (or_intror eq_refl) n N). cbn. unfold ones. intuition. }
      split; [intros [X|[(d & X & Y)|(_ & H)]]; [discriminate|congruence|exact (S1 H)]|]. intros _ _ H. apply S2. intros G'. apply H. split; [constructor|exact G'].
    + split; [|intros _ H; specialize (H d1 eq_refl); contradiction]. intros _. apply G. intros n.
      unfold dst. replace P with d1 by (unfold P; cbn; lia). replace (d1 =? 1) with false by (symmetry; apply Z.eqb_neq; assumption). apply fit_same.
  - destruct (ones_dec (removelast (d1 :: rest))) as [D|D].
    + destruct (only_single set None rs dst) as (S1 & S2); try assumption; try (rewrite Et; assumption).
      { intros n N. rewrite Et. cbn [slab_axes]. rewrite (F (or_introl NE) n N). tauto. }
      split; [intros [X|[(d & X & Y)|(_ & H)]]; [discriminate|congruence|exact (S1 H)]|]. intros _ _ H. apply S2. intros G'. apply H. split; assumption.
    + split; [intros [X|[(d & X & Y)|(H & _)]]; [discriminate|congruence|contradiction]|]. intros _ _ _.
      apply none_fits; try assumption; try (rewrite Et; assumption). intros n N. rewrite Et. cbn [slab_axes]. rewrite (F (or_introl NE) n N). tauto.
Qed.

(** Datasets of shape (n, 1) cannot be put into a subset as soon as two neighbours are kept. *)
Theorem C117_subset_refuted : forall (V : Type) (set : ndset V) (ranges : list (Z * Z)) (r : Z * Z),
  wf_ndset set -> nd_tail set = [1] ->
  Forall (in_bounds (zlen (nd_rows set))) ranges -> ordered_ranges ranges -> asks set ranges -> In r ranges -> 2 <= snd r - fst r ->
  subset_nd (Some (ranges, total_rows ranges)) set = Err TypeError
  /\ exists out, read_nd (Some (ranges, total_rows ranges)) None set = Ok out /\ shows set None (indices_of ranges) out.
Proof.
  intros V set rs r W T B O A I L. split.
  - apply C117_subset; try assumption.
    + intros E. rewrite Forall_forall in B. destruct (B r I) as (? & ? & ?). rewrite E in *. cbn in *. lia.
    + rewrite T. discriminate.
    + intros d E. rewrite T in E. congruence.
    + intros (_ & S & _). rewrite Forall_forall in S. specialize (S r I). cbn in S. lia.
  - unfold read_nd. rewrite T. eexists. split; [|apply all_rows_shown; [assumption|rewrite T; exact Logic.I|assumption]].
    apply (nd_fit set None rs [1] W); try assumption; try (rewrite T); try reflexivity; [repeat constructor; lia|]. intros. apply fit_same.
Qed.

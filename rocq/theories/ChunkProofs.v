(** Proofs about the chunked reader. *)
From Coq Require Import List ZArith Lia Bool Permutation Sorted.
From Verif Require Import Base BaseLemmas RangesModel RangesSpec RangesProofs.
Import ListNotations.
Open Scope Z_scope.

Lemma chunk_lower_bounds b c : 0 < c -> 0 <= b -> 0 <= b / c * c <= b.
Proof.
  intros Hc Hb. pose proof (Z.mul_div_le b c Hc). pose proof (Z.div_pos b c Hb Hc). nia.
Qed.

Lemma chunk_upper_bound b c : 0 < c -> b <= - (- b / c) * c.
Proof. intros Hc. pose proof (Z.mul_div_le (- b) c Hc). nia. Qed.

(** The chunk list together with the ranges each chunk was made for. *)
Definition grouped (n : Z) (chunks : list range) (groups : list (list range)) : Prop :=
  Forall2 (fun c g => g <> [] /\ in_bounds n c
                      /\ Forall (fun r => fst c <= fst r /\ snd r <= snd c) g)
          chunks groups.

Fixpoint separated (chunks : list range) : Prop :=
  match chunks with
  | c1 :: ((c2 :: _) as rest) => snd c1 < fst c2 /\ separated rest
  | _ => True
  end.

Lemma separated_snoc l c d :
  separated (l ++ [c]) -> snd c < fst d -> separated (l ++ [c; d]).
Proof.
  induction l as [|x l IH]; intros H H'.
  - cbn. auto.
  - destruct l as [|y l].
    + cbn in *. tauto.
    + cbn [app separated] in *. destruct H as [H1 H2]. split; [assumption|]. now apply IH.
Qed.

Lemma separated_last l c u :
  separated (l ++ [c]) -> separated (l ++ [(fst c, u)]).
Proof.
  induction l as [|x l IH]; intros H.
  - cbn. auto.
  - destruct l as [|y l].
    + cbn in *. tauto.
    + cbn [app separated] in *. destruct H as [H1 H2]. split; [assumption|]. now apply IH.
Qed.

Lemma ordered_snoc l r :
  ordered_ranges (l ++ [r]) ->
  ordered_ranges l /\ Forall (fun x => fst x <= fst r /\ snd x <= snd r) l.
Proof.
  unfold ordered_ranges. induction l as [|x l IH]; cbn [app]; intros H.
  - split; constructor.
  - inversion H as [|? ? Hs Hf]; subst. destruct (IH Hs) as [H1 H2].
    apply Forall_app in Hf. destruct Hf as [Hf1 Hf2]. inversion Hf2; subst.
    split; constructor; auto.
Qed.

Lemma Forall2_snoc_inv {A B} (R : A -> B -> Prop) l a m :
  Forall2 R (l ++ [a]) m -> exists m' b, m = m' ++ [b] /\ Forall2 R l m' /\ R a b.
Proof.
  intros H. apply Forall2_app_inv_l in H. destruct H as (m1 & m2 & H1 & H2 & ->).
  inversion H2 as [|? b ? ? Hab Hnil]; subst. inversion Hnil; subst. eauto.
Qed.

Lemma get_chunk_ranges_grouped n c (rs : list range) :
  0 < c -> Forall (in_bounds n) rs -> ordered_ranges rs ->
  exists groups, rs = concat groups /\ grouped n (get_chunk_ranges rs c n) groups
                 /\ separated (get_chunk_ranges rs c n).
Proof.
  intros Hc. unfold get_chunk_ranges.
  induction rs as [|r rs IH] using rev_ind; intros Hin Hord.
  - exists []. repeat split; constructor.
  - apply Forall_app in Hin. destruct Hin as [Hin Hr]. inversion Hr as [|? ? Hrb _]; subst.
    destruct Hrb as (Hr0 & Hr1 & Hr2).
    apply ordered_snoc in Hord. destruct Hord as [Hord Hle].
    destruct (IH Hin Hord) as (groups & Hconcat & Hgrp & Hsep).
    rewrite fold_left_app. cbn [fold_left].
    set (acc := fold_left (chunk_step c n) rs []) in *.
    clearbody acc. unfold chunk_step.
    set (lower := fst r / c * c). set (upper := Z.min (- (- snd r / c) * c) n).
    assert (Hl : 0 <= lower <= fst r) by (apply chunk_lower_bounds; assumption).
    assert (Hu : snd r <= upper <= n).
    { unfold upper. pose proof (chunk_upper_bound (snd r) c Hc). lia. }
    destruct acc as [|[l0 u0] older].
    + cbn in Hgrp. inversion Hgrp; subst. cbn in Hin.
      exists [[r]]. split; [reflexivity|]. split; [|exact I].
      constructor; [|constructor]. split; [discriminate|]. split.
      * repeat split; cbn; lia.
      * constructor; [cbn; lia|constructor].
    + cbn [rev] in Hgrp, Hsep.
      destruct (u0 <? lower) eqn:E.
      * apply Z.ltb_lt in E. exists (groups ++ [[r]]). split; [|split].
        -- rewrite concat_app, <- Hconcat. reflexivity.
        -- cbn [rev]. apply Forall2_app; [exact Hgrp|].
           constructor; [|constructor]. split; [discriminate|]. split.
           ++ repeat split; cbn; lia.
           ++ constructor; [cbn; lia|constructor].
        -- cbn [rev]. rewrite <- app_assoc. apply separated_snoc; cbn; assumption.
      * apply Z.ltb_ge in E.
        destruct (Forall2_snoc_inv _ _ _ _ Hgrp) as (gs & g & -> & Hgs & Hne & Hb & Hc').
        exists (gs ++ [g ++ [r]]).
        assert (Hl0 : l0 <= fst r).
        { destruct g as [|r' g]; [congruence|]. inversion Hc' as [|? ? [Ha _] _]; subst.
          cbn in Ha. rewrite concat_app in Hle. apply Forall_app in Hle.
          destruct Hle as [_ Hle]. cbn in Hle. inversion Hle as [|? ? [Hx _] _]. lia. }
        split; [|split].
        -- rewrite Hconcat, !concat_app. cbn. now rewrite !app_nil_r, app_assoc.
        -- cbn [rev]. apply Forall2_app; [exact Hgs|].
           constructor; [|constructor]. split; [destruct g; discriminate|]. split.
           ++ destruct Hb as (Hb1 & _ & _). repeat split; cbn in *; lia.
           ++ apply Forall_app. split.
              ** rewrite Hconcat, concat_app in Hle. apply Forall_app in Hle.
                 destruct Hle as [_ Hle]. cbn in Hle. rewrite app_nil_r in Hle.
                 rewrite Forall_forall in *. intros x Hx.
                 specialize (Hc' x Hx). specialize (Hle x Hx). cbn in *. lia.
              ** constructor; [cbn; lia|constructor].
        -- cbn [rev]. apply (separated_last (rev older) (l0, u0) upper Hsep).
Qed.

(** * The chunk pointer *)

Fixpoint group_indices (i : nat) (groups : list (list range)) : list nat :=
  match groups with
  | [] => []
  | g :: gs => repeat i (length g) ++ group_indices (S i) gs
  end.

Lemma chunk_contains_iff c r :
  chunk_contains c r = true <-> fst c <= fst r /\ snd r <= snd c.
Proof.
  unfold chunk_contains. rewrite andb_true_iff, !Z.leb_le. reflexivity.
Qed.

Lemma assign_cons_unfold c cs i rs :
  assign_chunks (c :: cs) i rs =
  match rs with
  | [] => []
  | r :: rs' => if chunk_contains c r then i :: assign_chunks (c :: cs) i rs'
                else assign_chunks cs (S i) rs
  end.
Proof. destruct rs; reflexivity. Qed.

Lemma assign_nil_ranges cs i : assign_chunks cs i [] = [].
Proof. destruct cs; reflexivity. Qed.

Lemma assign_chunks_grouped n chunks : forall groups i,
  grouped n chunks groups -> separated chunks ->
  Forall (in_bounds n) (concat groups) ->
  assign_chunks chunks i (concat groups) = group_indices i groups.
Proof.
  induction chunks as [|c cs IH]; intros groups i Hg Hsep Hin.
  - inversion Hg; subst. reflexivity.
  - inversion Hg as [|? g ? gs (Hne & Hb & Hc) Hgs]; subst. cbn [concat group_indices].
    cbn [concat] in Hin. apply Forall_app in Hin. destruct Hin as [Hin1 Hin2].
    assert (Hnext : assign_chunks (c :: cs) i (concat gs) = group_indices (S i) gs).
    { rewrite <- (IH gs (S i) Hgs); [| |assumption].
      2:{ destruct cs; [exact I|]. destruct Hsep. assumption. }
      rewrite assign_cons_unfold.
      inversion Hgs as [|c' g' cs' gs' (Hne' & Hb' & Hc') Hgs']; subst.
      - reflexivity.
      - destruct g' as [|r g']; [congruence|]. cbn [concat app].
        inversion Hc' as [|? ? [Hr1 Hr2] _]; subst.
        cbn [concat app] in Hin2. inversion Hin2 as [|? ? (Hi1 & Hi2 & Hi3) _]; subst.
        destruct Hsep as [Hs _].
        replace (chunk_contains c r) with false; [reflexivity|].
        symmetry. apply not_true_iff_false. rewrite chunk_contains_iff. lia. }
    rewrite <- Hnext. clear Hnext Hne Hin1 IH Hg.
    induction Hc as [|r g Hr _ IHg]; [reflexivity|].
    cbn [app]. rewrite assign_cons_unfold.
    apply chunk_contains_iff in Hr. rewrite Hr. cbn [length repeat app]. f_equal.
    exact IHg.
Qed.

(** * Adjusted ranges *)

Definition shift_range (d : Z) (r : range) : range := (fst r + d, snd r + d).

Fixpoint shifted (chunks : list range) (groups : list (list range)) (base : Z) : list range :=
  match chunks, groups with
  | c :: cs, g :: gs =>
      map (shift_range (base - fst c)) g ++ shifted cs gs (base + (snd c - fst c))
  | _, _ => []
  end.

Lemma adjust_group pre c post gs gidx g : forall base rest,
  g <> [] ->
  (gs = [] -> gidx = [] /\ rest = []) ->
  (gs <> [] -> exists tl, gidx = S (length pre) :: tl) ->
  (gs <> [] -> adjust_ranges (pre ++ c :: post) gidx gs (base + (snd c - fst c)) = Ok rest) ->
  adjust_ranges (pre ++ c :: post) (repeat (length pre) (length g) ++ gidx) (g ++ gs) base
  = Ok (map (shift_range (base - fst c)) g ++ rest).
Proof.
  assert (Hnth : nth_error (pre ++ c :: post) (length pre) = Some c).
  { rewrite nth_error_app2 by lia. now rewrite Nat.sub_diag. }
  induction g as [|r g IH]; intros base rest Hne Hend Hnext Hrec; [congruence|].
  cbn [length repeat app adjust_ranges map]. rewrite Hnth.
  assert (Hadj : (fst r - (fst c - base), snd r - (fst c - base)) = shift_range (base - fst c) r).
  { unfold shift_range. f_equal; lia. }
  rewrite Hadj.
  destruct g as [|r2 g].
  - cbn [length repeat app map]. destruct gs as [|r3 gs].
    + destruct (Hend eq_refl) as [-> ->]. reflexivity.
    + destruct (Hnext ltac:(discriminate)) as [tl ->].
      replace (Nat.ltb (length pre) (S (length pre))) with true
        by (symmetry; apply Nat.ltb_lt; lia).
      rewrite (Hrec ltac:(discriminate)). reflexivity.
  - cbn [length repeat app]. rewrite Nat.ltb_irrefl.
    specialize (IH base rest ltac:(discriminate) Hend Hnext Hrec).
    cbn [length repeat app] in IH. rewrite IH. reflexivity.
Qed.

Lemma adjust_ranges_grouped n chunks : forall pre groups base,
  grouped n chunks groups -> groups <> [] ->
  adjust_ranges (pre ++ chunks) (group_indices (length pre) groups) (concat groups) base
  = Ok (shifted chunks groups base).
Proof.
  induction chunks as [|c cs IH]; intros pre groups base Hg Hne.
  - inversion Hg; subst. congruence.
  - inversion Hg as [|? g ? gs (Hgne & Hb & Hc) Hgs]; subst.
    cbn [group_indices concat shifted].
    apply adjust_group; [assumption| | |].
    + intros E. destruct gs as [|g' gs].
      * inversion Hgs; subst. split; reflexivity.
      * inversion Hgs as [|c' ? cs' ? (Hne' & _) _]; subst.
        destruct g'; [congruence|discriminate].
    + intros E. destruct gs as [|g' gs]; [now destruct E|].
      inversion Hgs as [|c' ? cs' ? (Hne' & _) _]; subst.
      destruct g'; [congruence|]. cbn. eauto.
    + intros E. destruct gs as [|g' gs]; [now destruct E|].
      specialize (IH (pre ++ [c]) (g' :: gs) (base + (snd c - fst c)) Hgs ltac:(discriminate)).
      rewrite <- app_assoc in IH. cbn [app] in IH.
      replace (length (pre ++ [c])) with (S (length pre)) in IH
        by (rewrite app_length; cbn; lia).
      exact IH.
Qed.

(** * Extraction *)

Lemma nth_error_skipn {A} (l : list A) n k : nth_error (skipn n l) k = nth_error l (n + k).
Proof.
  revert l. induction n; intros l; [reflexivity|]. destruct l; [now destruct k|]. cbn. apply IHn.
Qed.

Lemma nth_error_firstn {A} (l : list A) n k :
  (k < n)%nat -> nth_error (firstn n l) k = nth_error l k.
Proof.
  revert l k. induction n; intros l k H; [lia|].
  destruct l; [reflexivity|]. destruct k; [reflexivity|]. cbn. apply IHn. lia.
Qed.

Lemma slice_rows_nth {A B} (col : A -> B) data c x :
  in_bounds (zlen data) c -> fst c <= x < snd c ->
  nth_error (slice_rows col data c) (Z.to_nat (x - fst c))
  = option_map col (nth_error data (Z.to_nat x)).
Proof.
  intros (H1 & H2 & H3) Hx. unfold slice_rows.
  rewrite nth_error_map, nth_error_firstn, nth_error_skipn by lia.
  do 2 f_equal. lia.
Qed.

Lemma take_one_ok {B} (l : list B) i x :
  0 <= i -> nth_error l (Z.to_nat i) = Some x -> take_one l i = Ok x.
Proof.
  intros H0 Hx. unfold take_one.
  replace (i <? 0) with false by (symmetry; apply Z.ltb_ge; lia).
  replace (i <? 0) with false by (symmetry; apply Z.ltb_ge; lia).
  now rewrite Hx.
Qed.

Lemma take_group {A B} (col : A -> B) data c (before after : list B) g :
  in_bounds (zlen data) c ->
  Forall (fun r => fst c <= fst r /\ snd r <= snd c) g ->
  Forall (in_bounds (zlen data)) g ->
  all_ok (map (take_one (map Some (before ++ slice_rows col data c ++ after)))
              (indices_of (map (shift_range (zlen before - fst c)) g)))
  = Ok (map Some (all_rows col data g)).
Proof.
  intros Hc Hg Hin. apply all_ok_spec.
  assert (forall x, fst c <= x < snd c ->
    exists row, nth_error data (Z.to_nat x) = Some row /\
    take_one (map Some (before ++ slice_rows col data c ++ after)) (x + (zlen before - fst c))
    = Ok (Some (col row))) as Htake.
  { intros x Hx. destruct Hc as (Hc1 & Hc2 & Hc3).
    destruct (nth_error data (Z.to_nat x)) as [row|] eqn:Hrow.
    2:{ apply nth_error_None in Hrow. unfold zlen in Hc3. lia. }
    exists row. split; [reflexivity|]. pose proof (zlen_nonneg before).
    apply take_one_ok; [lia|].
    rewrite nth_error_map, nth_error_app2 by (unfold zlen in *; lia).
    replace (Z.to_nat (x + (zlen before - fst c)) - length before)%nat
      with (Z.to_nat (x - fst c)) by (unfold zlen in *; lia).
    rewrite nth_error_app1.
    - rewrite slice_rows_nth by (repeat split; lia). now rewrite Hrow.
    - pose proof (slice_rows_length col data c ltac:(repeat split; lia)).
      unfold zlen in *. lia. }
  revert Htake. generalize (take_one (map Some (before ++ slice_rows col data c ++ after))) as T.
  intros T Htake.
  induction g as [|r g IH]; [reflexivity|].
  inversion Hg as [|? ? [Hr1 Hr2] Hg']; subst. inversion Hin as [|? ? Hrb Hin']; subst.
  cbn [map]. change (indices_of (shift_range (zlen before - fst c) r ::
      map (shift_range (zlen before - fst c)) g))
    with (zrange (fst r + (zlen before - fst c)) (snd r + (zlen before - fst c))
          ++ indices_of (map (shift_range (zlen before - fst c)) g)).
  change (all_rows col data (r :: g)) with (slice_rows col data r ++ all_rows col data g).
  rewrite !map_app, IH by assumption. f_equal.
  rewrite zrange_shift, !map_map.
  pose proof (slice_rows_are col data r Hrb) as Hrows.
  assert (Hin2 : forall x, In x (zrange (fst r) (snd r)) -> fst c <= x < snd c).
  { intros x Hx. apply In_zrange in Hx. lia. }
  revert Hrows Hin2. generalize (zrange (fst r) (snd r)) as idx.
  generalize (slice_rows col data r) as rows. clear - Htake.
  induction rows as [|v rows IH]; intros idx Hrows Hin2; cbn [map] in *.
  - inversion Hrows; subst. reflexivity.
  - inversion Hrows as [|i ? idx' ? (H0 & row & Hrow & Hv) Hrest]; subst. cbn [map]. f_equal.
    + destruct (Htake i (Hin2 i (or_introl eq_refl))) as (row' & Hrow' & Ht).
      rewrite Ht. rewrite Hrow in Hrow'. injection Hrow' as <-. now injection Hv as ->.
    + apply IH; [assumption|]. intros x Hx. apply Hin2. now right.
Qed.

Lemma all_ok_app {A} (l m : list (res A)) r s :
  all_ok l = Ok r -> all_ok m = Ok s -> all_ok (l ++ m) = Ok (r ++ s).
Proof. rewrite !all_ok_spec. intros -> ->. now rewrite map_app. Qed.

Lemma extract_grouped {A B} (col : A -> B) data chunks : forall groups (before : list B),
  grouped (zlen data) chunks groups ->
  Forall (in_bounds (zlen data)) (concat groups) ->
  all_ok (map (take_one (map Some (before ++ all_rows col data chunks)))
              (indices_of (shifted chunks groups (zlen before))))
  = Ok (map Some (all_rows col data (concat groups))).
Proof.
  induction chunks as [|c cs IH]; intros groups before Hg Hin.
  - inversion Hg; subst. reflexivity.
  - inversion Hg as [|? g ? gs (Hne & Hb & Hc) Hgs]; subst.
    cbn [shifted concat] in *. apply Forall_app in Hin. destruct Hin as [Hin1 Hin2].
    assert (Happ : all_rows col data (g ++ concat gs)
                   = all_rows col data g ++ all_rows col data (concat gs))
      by (unfold all_rows; apply flat_map_app).
    rewrite Happ, (map_app Some (all_rows col data g)), indices_of_app.
    rewrite (map_app (take_one _)).
    change (all_rows col data (c :: cs)) with (slice_rows col data c ++ all_rows col data cs).
    apply all_ok_app.
    + now apply take_group.
    + specialize (IH gs (before ++ slice_rows col data c) Hgs Hin2).
      rewrite zlen_app, slice_rows_length in IH by assumption.
      rewrite <- app_assoc in IH. exact IH.
Qed.

Lemma shifted_wf n chunks : forall groups base,
  grouped n chunks groups -> Forall (in_bounds n) (concat groups) ->
  Forall (fun r => fst r <= snd r) (shifted chunks groups base).
Proof.
  induction chunks as [|c cs IH]; intros groups base Hg Hin.
  - inversion Hg; subst. constructor.
  - inversion Hg as [|? g ? gs (Hne & Hb & Hc) Hgs]; subst.
    cbn [shifted concat] in *. apply Forall_app in Hin. destruct Hin as [Hin1 Hin2].
    apply Forall_app. split; [|now apply IH].
    apply Forall_map. eapply Forall_impl; [|exact Hin1].
    intros r (H1 & H2 & H3). cbn. lia.
Qed.

Lemma chunked_exact {A B} (col : A -> B) data c rs n :
  0 < c -> rs <> [] -> Forall (in_bounds (zlen data)) rs -> ordered_ranges rs ->
  read_ranges_chunked col data c rs n = Ok (map Some (all_rows col data rs)).
Proof.
  intros Hc Hne Hin Hord. unfold read_ranges_chunked.
  destruct (get_chunk_ranges_grouped (zlen data) c rs Hc Hin Hord)
    as (groups & Hconcat & Hg & Hsep).
  set (chunks := get_chunk_ranges rs c (zlen data)) in *. clearbody chunks.
  assert (Hcin : Forall (in_bounds (zlen data)) chunks).
  { clear - Hg. induction Hg as [|c g cs gs (_ & H & _) _ IH]; constructor; auto. }
  fold (total_rows chunks).
  pose proof (unchunked_exact col data chunks Hcin) as Hread.
  unfold read_ranges_unchunked in Hread.
  destruct (np_empty (total_rows chunks)) as [buf|e] eqn:Hbuf; [|discriminate].
  cbn [bind] in *. rewrite Hread. cbn [bind]. clear Hread Hbuf buf.
  unfold extract_ranges. rewrite Hconcat in *.
  rewrite (assign_chunks_grouped (zlen data)) by assumption.
  assert (Hgne : groups <> []) by (intros ->; now apply Hne).
  pose proof (adjust_ranges_grouped (zlen data) chunks [] groups 0 Hg Hgne) as Hadj.
  cbn [app length] in Hadj. rewrite Hadj. cbn [bind].
  rewrite expand_ranges_spec by (eapply shifted_wf; eassumption). cbn [bind].
  pose proof (extract_grouped col data chunks groups [] Hg Hin) as H.
  cbn [app] in H. exact H.
Qed.

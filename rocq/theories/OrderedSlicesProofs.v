(** Proofs about OrderedSlices and the remote reader. *)
From Coq Require Import List ZArith Lia Bool Permutation Sorted.
From Verif Require Import Base BaseLemmas RangesModel RangesSpec RangesProofs ChunkProofs.
Import ListNotations.
Open Scope Z_scope.

(** * Generic list facts *)

Lemma Forall2_nth_intro {A B} (R : A -> B -> Prop) l : forall m,
  length l = length m ->
  (forall i a b, nth_error l i = Some a -> nth_error m i = Some b -> R a b) ->
  Forall2 R l m.
Proof.
  induction l as [|x l IH]; intros [|y m] Hlen H; cbn in Hlen; try discriminate; constructor.
  - now apply (H O).
  - apply IH; [lia|]. intros i a b Ha Hb. now apply (H (S i)).
Qed.

Lemma Forall2_nth_elim {A B} (R : A -> B -> Prop) l m i a :
  Forall2 R l m -> nth_error l i = Some a -> exists b, nth_error m i = Some b /\ R a b.
Proof.
  intros H. revert i. induction H; intros [|i] Hi; cbn in *; try discriminate.
  - injection Hi as ->. eauto.
  - auto.
Qed.

Lemma take_order_valid {A} (l : list A) o :
  Forall (fun i => (i < length l)%nat) o ->
  Forall2 (fun i x => nth_error l i = Some x) o (take_order l o).
Proof.
  induction 1 as [|i o Hi _ IH]; [constructor|].
  unfold take_order in *. cbn [flat_map].
  destruct (nth_error l i) eqn:E.
  - cbn. now constructor.
  - apply nth_error_None in E. lia.
Qed.

Lemma take_order_unique {A} (l : list A) o out :
  Forall2 (fun i x => nth_error l i = Some x) o out -> take_order l o = out.
Proof.
  induction 1 as [|i x o out Hi _ IH]; [reflexivity|].
  unfold take_order in *. cbn [flat_map]. rewrite Hi. cbn. now f_equal.
Qed.

Lemma fold_upd_nth kos : forall (acc : list nat) k i,
  NoDup (map snd kos) -> In (k, i) kos -> (i < length acc)%nat ->
  nth_error (fold_left (fun acc ko => upd (snd ko) (fst ko) acc) kos acc) i = Some k.
Proof.
  induction kos as [|[k0 i0] kos IH]; intros acc k i Hnd Hin Hlt; [easy|].
  cbn [fold_left fst snd]. cbn in Hnd. inversion Hnd as [|? ? Hni Hnd']; subst.
  destruct Hin as [[= -> ->]|Hin].
  - assert (Hkeep : forall kos (acc : list nat), ~ In i (map snd kos) ->
      nth_error (fold_left (fun acc ko => upd (snd ko) (fst ko) acc) kos acc) i
      = nth_error acc i).
    { clear. induction kos as [|[k1 i1] kos IH]; intros acc H; [reflexivity|].
      cbn in H. cbn [fold_left fst snd]. rewrite IH by tauto.
      apply nth_error_upd_neq. tauto. }
    rewrite Hkeep by assumption. now apply nth_error_upd_eq.
  - apply IH; [assumption|assumption|]. now rewrite upd_length.
Qed.

Lemma fold_upd_length kos : forall (acc : list nat),
  length (fold_left (fun acc ko => upd (snd ko) (fst ko) acc) kos acc) = length acc.
Proof.
  induction kos as [|ko kos IH]; intros acc; [reflexivity|].
  cbn [fold_left]. now rewrite IH, upd_length.
Qed.

Lemma map_snd_combine {A B} (l : list A) (m : list B) :
  length l = length m -> map snd (combine l m) = m.
Proof.
  revert m. induction l as [|x l IH]; intros [|y m] H; cbn in *; try discriminate; auto.
  f_equal. apply IH. lia.
Qed.

Lemma nth_error_combine {A B} (l : list A) (m : list B) i a b :
  nth_error l i = Some a -> nth_error m i = Some b -> nth_error (combine l m) i = Some (a, b).
Proof.
  revert m i. induction l as [|x l IH]; intros [|y m] [|i]; cbn; try discriminate.
  - congruence.
  - apply IH.
Qed.

Lemma nth_error_seq s n i : (i < n)%nat -> nth_error (seq s n) i = Some (s + i)%nat.
Proof.
  intros H. rewrite (nth_error_nth' _ O) by (rewrite seq_length; lia). now rewrite seq_nth.
Qed.

Lemma invert_order_spec o n :
  Permutation o (seq 0 n) ->
  length (invert_order o) = n /\
  forall k i, nth_error o k = Some i -> nth_error (invert_order o) i = Some k.
Proof.
  intros Hp. pose proof (Permutation_length Hp) as Hlen. rewrite seq_length in Hlen.
  unfold invert_order. split.
  - rewrite fold_upd_length, repeat_length. lia.
  - intros k i Hk.
    assert (Hk' : (k < length o)%nat) by (apply nth_error_Some; congruence).
    apply fold_upd_nth.
    + rewrite map_snd_combine by (rewrite seq_length; lia).
      eapply Permutation_NoDup; [symmetry; exact Hp|apply seq_NoDup].
    + eapply nth_error_In with (n := k). apply nth_error_combine; [|exact Hk].
      now apply nth_error_seq.
    + rewrite repeat_length. apply nth_error_In in Hk.
      eapply Permutation_in in Hk; [|exact Hp]. apply in_seq in Hk. lia.
Qed.

Lemma reorder_cancels {A B} (f : A -> B) (l : list A) o :
  Permutation o (seq 0 (length l)) ->
  take_order (map f (take_order l o)) (invert_order o) = map f l.
Proof.
  intros Hp. destruct (invert_order_spec o _ Hp) as [Hlen Hinv].
  assert (Hv : Forall2 (fun i x => nth_error l i = Some x) o (take_order l o)).
  { apply take_order_valid. apply Forall_forall. intros i Hi.
    eapply Permutation_in in Hi; [|exact Hp]. apply in_seq in Hi. lia. }
  apply take_order_unique. apply Forall2_nth_intro.
  - now rewrite map_length.
  - intros i k b Hk Hb.
    assert (Hi : (i < length l)%nat).
    { rewrite <- Hlen. apply nth_error_Some. congruence. }
    assert (Hin : In i o).
    { eapply Permutation_in; [symmetry; exact Hp|]. apply in_seq. lia. }
    apply In_nth_error in Hin. destruct Hin as [k' Hk'].
    pose proof (Hinv _ _ Hk') as E. rewrite Hk in E. injection E as <-.
    destruct (Forall2_nth_elim _ _ _ _ _ Hv Hk') as (x & Hx & Hli).
    rewrite nth_error_map, Hx. rewrite nth_error_map, Hli in Hb. exact Hb.
Qed.

Lemma take_order_perm {A} (l : list A) o :
  Permutation o (seq 0 (length l)) -> Permutation (take_order l o) l.
Proof.
  intros Hp.
  assert (E : take_order l (seq 0 (length l)) = l).
  { apply take_order_unique. apply Forall2_nth_intro; [now rewrite seq_length|].
    intros i a b Ha Hb.
    assert (Hi : (i < length l)%nat) by (apply nth_error_Some; congruence).
    rewrite nth_error_seq in Ha by assumption. injection Ha as <-. exact Hb. }
  rewrite <- E at 2. unfold take_order.
  now apply Permutation_flat_map.
Qed.

(** * Merging adjacent ranges *)

Lemma kept_merge n rest : forall s0 s e,
  overlaps_next ((s, e) :: rest) = false ->
  Forall (fun r => 0 <= fst r /\ fst r < snd r /\ snd r <= n) ((s, e) :: rest) ->
  0 <= s0 <= s ->
  let slices := combine (s0 :: kept_starts (Some e) rest) (kept_stops ((s, e) :: rest)) in
  (exists e1 tl, slices = (s0, e1) :: tl) /\
  indices_of slices = zrange s0 s ++ indices_of ((s, e) :: rest) /\
  Forall (fun r => in_bounds n r /\ fst r < snd r) slices /\
  separated slices.
Proof.
  induction rest as [|[s' e'] rest IH]; intros s0 s e Hno Hwf Hs0; cbn zeta.
  - cbn. inversion Hwf as [|? ? (H1 & H2 & H3) _]; subst. cbn in *.
    split; [eauto|]. split.
    + rewrite !app_nil_r. symmetry. rewrite <- zrange_app by lia. reflexivity.
    + split; [|exact I]. constructor; [|constructor]. unfold in_bounds. cbn. lia.
  - cbn [overlaps_next] in Hno. apply orb_false_iff in Hno. destruct Hno as [Hlt Hno].
    apply Z.ltb_ge in Hlt. cbn [fst snd] in Hlt.
    inversion Hwf as [|? ? (H1 & H2 & H3) Hwf']; subst. cbn [fst snd] in *.
    cbn [kept_starts kept_stops].
    destruct (s' =? e) eqn:E.
    + apply Z.eqb_eq in E. subst s'. rewrite Z.eqb_refl. cbn [negb].
      destruct (IH s0 e e' Hno Hwf' ltac:(lia)) as (I1 & I2 & I3 & I4).
      cbn zeta in *. cbn [kept_stops] in *.
      split; [exact I1|]. split; [|split; assumption]. rewrite I2.
      rewrite (zrange_app s0 s e) by lia.
      change (indices_of ((s, e) :: (e, e') :: rest))
        with (zrange s e ++ indices_of ((e, e') :: rest)).
      now rewrite app_assoc.
    + apply Z.eqb_neq in E.
      replace (e =? s') with false by (symmetry; apply Z.eqb_neq; congruence).
      cbn [negb combine].
      destruct (IH s' s' e' Hno Hwf' ltac:(inversion Hwf' as [|? ? (? & ? & ?) _]; cbn in *; lia))
        as ((e1 & tl & I1) & I2 & I3 & I4).
      cbn zeta in *. cbn [kept_stops combine] in I1, I2, I3, I4. rewrite I1 in *.
      split; [eauto|]. split; [|split].
      * change (indices_of ((s0, e) :: (s', e1) :: tl))
          with (zrange s0 e ++ indices_of ((s', e1) :: tl)).
        rewrite I2, (zrange_nil s' s') by lia. cbn [app].
        rewrite (zrange_app s0 s e) by lia. rewrite <- app_assoc. reflexivity.
      * constructor; [|assumption]. unfold in_bounds; cbn. lia.
      * cbn [separated fst snd]. split; [lia|assumption].
Qed.

Lemma merge_spec n l :
  overlaps_next l = false ->
  Forall (fun r => in_bounds n r /\ fst r < snd r) l ->
  let slices := combine (kept_starts None l) (kept_stops l) in
  indices_of slices = indices_of l /\
  Forall (fun r => in_bounds n r /\ fst r < snd r) slices /\
  separated slices.
Proof.
  intros Hno Hwf. cbn zeta. destruct l as [|[s e] rest].
  - cbn. auto.
  - cbn [kept_starts].
    destruct (kept_merge n rest s s e Hno) as (_ & I2 & I3 & I4).
    + eapply Forall_impl; [|exact Hwf]. unfold in_bounds. intros; lia.
    + inversion Hwf as [|? ? [(H1 & _ & _) _] _]; subst. cbn in *. lia.
    + cbn zeta in *. rewrite I2, (zrange_nil s s) by lia. auto.
Qed.

(** * Disjointness *)

Lemma disjoint_sym a b : disjoint_ranges a b -> disjoint_ranges b a.
Proof. unfold disjoint_ranges. firstorder. Qed.

Lemma FOP_perm {A} (R : A -> A -> Prop) (Hsym : forall a b, R a b -> R b a) l m :
  Permutation l m -> ForallOrdPairs R l -> ForallOrdPairs R m.
Proof.
  induction 1; intros HF; auto.
  - inversion HF as [|? ? Ha Hl]; subst. constructor; [|auto].
    eapply Permutation_Forall; eassumption.
  - inversion HF as [|? ? Ha Hl]; subst. inversion Hl as [|? ? Hb Hl']; subst.
    inversion Ha as [|? ? Hab Ha']; subst.
    constructor; [constructor; auto|]. constructor; auto.
Qed.

Lemma pairwise_filter l :
  pairwise_disjoint (filter (fun r => 0 <? snd r - fst r) l) <-> pairwise_disjoint l.
Proof.
  unfold pairwise_disjoint. induction l as [|r l IH]; [reflexivity|]. cbn [filter].
  destruct (0 <? snd r - fst r) eqn:E.
  - apply Z.ltb_lt in E. split; intros H; inversion H as [|? ? Ha Hl]; subst; constructor;
      try (now apply IH).
    + rewrite Forall_forall in *. intros x Hx.
      destruct (0 <? snd x - fst x) eqn:Ex.
      * apply Ha. apply filter_In. auto.
      * apply Z.ltb_ge in Ex. unfold disjoint_ranges. intros; lia.
    + rewrite Forall_forall in *. intros x Hx. apply filter_In in Hx. now apply Ha.
  - apply Z.ltb_ge in E. rewrite IH. split; intros H.
    + constructor; [|assumption]. apply Forall_forall. unfold disjoint_ranges. intros; lia.
    + now inversion H.
Qed.

Lemma no_overlap_pairwise l :
  Forall (fun r => fst r < snd r) l -> overlaps_next l = false ->
  pairwise_disjoint l /\ StronglySorted (fun a b => snd a <= fst b) l.
Proof.
  unfold pairwise_disjoint. induction l as [|r l IH]; intros Hwf Hno.
  - split; constructor.
  - inversion Hwf as [|? ? Hr Hwf']; subst.
    assert (Hno' : overlaps_next l = false).
    { destruct l; [reflexivity|]. cbn [overlaps_next] in Hno.
      apply orb_false_iff in Hno. tauto. }
    destruct (IH Hwf' Hno') as [I1 I2].
    assert (Hall : Forall (fun b => snd r <= fst b) l).
    { destruct l as [|r2 l]; [constructor|]. cbn [overlaps_next] in Hno.
      apply orb_false_iff in Hno. destruct Hno as [H _]. apply Z.ltb_ge in H.
      inversion I2 as [|? ? _ I3]; subst. inversion Hwf' as [|? ? Hr2 _]; subst.
      constructor; [assumption|]. eapply Forall_impl; [|exact I3]. cbn; intros; lia. }
    split; constructor; auto.
    eapply Forall_impl; [|exact Hall]. unfold disjoint_ranges. cbn; intros; lia.
Qed.

Lemma overlap_not_pairwise l :
  Forall (fun r => fst r < snd r) l ->
  StronglySorted Z.le (map fst l) ->
  overlaps_next l = true -> ~ pairwise_disjoint l.
Proof.
  unfold pairwise_disjoint. induction l as [|r l IH]; intros Hwf Hs Hov Hp; [discriminate|].
  inversion Hwf as [|? ? Hr Hwf']; subst. inversion Hp as [|? ? Ha Hl]; subst.
  cbn [map] in Hs. inversion Hs as [|? ? Hs' Hle]; subst.
  destruct l as [|r2 l]; [discriminate|]. cbn [overlaps_next] in Hov.
  apply orb_true_iff in Hov. destruct Hov as [Hlt|Hov].
  - apply Z.ltb_lt in Hlt. inversion Ha as [|? ? Hd _]; subst.
    cbn [map] in Hle. inversion Hle as [|? ? Hle2 _]; subst.
    inversion Hwf' as [|? ? Hr2 _]; subst.
    apply (Hd (fst r2)). lia.
  - now apply IH.
Qed.

(** * The remote reader *)

Lemma filter_nonempty_wf n l :
  Forall (in_bounds n) l ->
  Forall (fun r => in_bounds n r /\ fst r < snd r) (filter (fun r => 0 <? snd r - fst r) l).
Proof.
  intros H. apply Forall_forall. intros x Hx. apply filter_In in Hx. destruct Hx as [Hx E].
  apply Z.ltb_lt in E. rewrite Forall_forall in H. split; [auto|lia].
Qed.

Lemma filter_nonempty_indices l :
  Forall (fun r => fst r <= snd r) l ->
  indices_of (filter (fun r => 0 <? snd r - fst r) l) = indices_of l.
Proof.
  induction 1 as [|r l Hr _ IH]; [reflexivity|]. cbn [filter].
  change (indices_of (r :: l)) with (zrange (fst r) (snd r) ++ indices_of l).
  destruct (0 <? snd r - fst r) eqn:E.
  - now rewrite <- IH.
  - apply Z.ltb_ge in E. rewrite (zrange_nil (fst r)) by lia. exact IH.
Qed.

Lemma argsort_sorts argsort (ranges : list range) :
  is_argsort argsort ->
  let ordered := take_order ranges (argsort (map fst ranges)) in
  Permutation (argsort (map fst ranges)) (seq 0 (length ranges)) /\
  Permutation ordered ranges /\ StronglySorted Z.le (map fst ordered).
Proof.
  intros Harg. cbn zeta. destruct (Harg (map fst ranges)) as [Hp Hs].
  rewrite map_length in Hp. split; [assumption|]. split; [now apply take_order_perm|].
  set (o := argsort (map fst ranges)) in *.
  assert (Hv : Forall2 (fun i x => nth_error ranges i = Some x) o (take_order ranges o)).
  { apply take_order_valid. apply Forall_forall. intros i Hi.
    eapply Permutation_in in Hi; [|exact Hp]. apply in_seq in Hi. lia. }
  replace (map fst (take_order ranges o)) with (map (fun i => nth i (map fst ranges) 0) o);
    [assumption|].
  clear - Hv. induction Hv as [|i x o out Hi _ IH]; [reflexivity|]. cbn [map].
  f_equal; [|exact IH].
  apply nth_error_nth. rewrite nth_error_map, Hi. reflexivity.
Qed.

Lemma make_ordered_slices_error argsort ranges :
  is_argsort argsort -> ranges <> [] -> ~ pairwise_disjoint ranges ->
  make_ordered_slices argsort ranges = Err RuntimeError.
Proof.
  intros Harg Hne Hnd. unfold make_ordered_slices.
  destruct ranges as [|r0 ranges0]; [congruence|]. set (ranges := r0 :: ranges0) in *.
  rewrite <- pairwise_filter in Hnd.
  assert (Hw : Forall (fun r => fst r < snd r) (filter (fun r => 0 <? snd r - fst r) ranges)).
  { apply Forall_forall. intros x Hx. apply filter_In in Hx. destruct Hx as [_ E].
    apply Z.ltb_lt in E. lia. }
  set (rs := filter _ ranges) in *. clearbody rs.
  destruct (overlaps_next rs) eqn:E.
  2:{ exfalso. apply Hnd. now apply no_overlap_pairwise. }
  destruct (argsort_sorts argsort rs Harg) as (Hp & Hperm & Hs).
  destruct (overlaps_next (take_order rs (argsort (map fst rs)))) eqn:E2; [reflexivity|].
  exfalso. apply Hnd.
  eapply FOP_perm; [exact disjoint_sym|exact Hperm|].
  apply no_overlap_pairwise; [|assumption].
  eapply Permutation_Forall; [symmetry; exact Hperm|assumption].
Qed.

Lemma make_ordered_slices_ok n argsort ranges :
  is_argsort argsort -> ranges <> [] -> pairwise_disjoint ranges ->
  Forall (in_bounds n) ranges ->
  exists ordered os, make_ordered_slices argsort ranges = Ok os /\
  let rs := filter (fun r => 0 <? snd r - fst r) ranges in
  Permutation ordered rs /\
  indices_of (os_slices os) = indices_of ordered /\
  Forall (fun r => in_bounds n r /\ fst r < snd r) (os_slices os) /\
  separated (os_slices os) /\
  os_lengths os = map (fun r => snd r - fst r) ordered /\
  ((os_inverse_order os = None /\ ordered = rs) \/
   (exists o, os_inverse_order os = Some (invert_order o) /\ ordered = take_order rs o
              /\ Permutation o (seq 0 (length rs)) /\ rs <> [])).
Proof.
  intros Harg Hne Hpd Hin. unfold make_ordered_slices.
  destruct ranges as [|r0 ranges0]; [congruence|]. set (ranges := r0 :: ranges0) in *.
  rewrite <- pairwise_filter in Hpd.
  pose proof (filter_nonempty_wf n ranges Hin) as Hwf.
  cbn zeta. set (rs := filter _ ranges) in *. clearbody rs.
  assert (Hw : Forall (fun r => fst r < snd r) rs)
    by (eapply Forall_impl; [|exact Hwf]; cbn beta; intros; tauto).
  destruct (overlaps_next rs) eqn:E.
  - destruct (argsort_sorts argsort rs Harg) as (Hp & Hperm & Hs).
    set (o := argsort (map fst rs)) in *.
    destruct (overlaps_next (take_order rs o)) eqn:E2.
    + exfalso. eapply overlap_not_pairwise; [|exact Hs|exact E2|].
      * eapply Permutation_Forall; [symmetry; exact Hperm|assumption].
      * eapply FOP_perm; [exact disjoint_sym|symmetry; exact Hperm|exact Hpd].
    + exists (take_order rs o). eexists. split; [reflexivity|].
      cbn [os_slices os_lengths os_inverse_order option_map].
      destruct (merge_spec n (take_order rs o) E2) as (I1 & I2 & I3).
      { eapply Permutation_Forall; [symmetry; exact Hperm|assumption]. }
      cbn zeta in *. repeat split; try assumption.
      right. exists o. repeat split; try assumption. intros ->. discriminate.
  - rewrite E. exists rs. eexists. split; [reflexivity|].
    cbn [os_slices os_lengths os_inverse_order option_map].
    destruct (merge_spec n rs E Hwf) as (I1 & I2 & I3). cbn zeta in *.
    repeat split; try assumption; try reflexivity. left. auto.
Qed.

Lemma split_lengths_pieces {A} (f : range -> list A) l :
  l <> [] -> (forall r, In r l -> zlen (f r) = snd r - fst r) ->
  split_lengths (flat_map f l) (map (fun r => snd r - fst r) l) = map f l.
Proof.
  induction l as [|r l IH]; intros Hne Hlen; [congruence|].
  pose proof (Hlen r (or_introl eq_refl)) as Hr.
  destruct l as [|r2 l].
  - cbn. now rewrite app_nil_r.
  - assert (Hn : Z.to_nat (snd r - fst r) = length (f r)) by (unfold zlen in Hr; lia).
    change (map (fun r => snd r - fst r) (r :: r2 :: l))
      with ((snd r - fst r) :: map (fun r => snd r - fst r) (r2 :: l)).
    cbn [split_lengths map]. cbn [map] in IH.
    change (flat_map f (r :: r2 :: l)) with (f r ++ flat_map f (r2 :: l)).
    rewrite Hn, firstn_app, Nat.sub_diag, firstn_all, firstn_O, app_nil_r.
    rewrite skipn_app, skipn_all, Nat.sub_diag. cbn [app skipn].
    f_equal. apply IH; [discriminate|]. intros x Hx. apply Hlen. now right.
Qed.

Lemma all_ok_h5 {A B} (col : A -> B) data slices :
  Forall (in_bounds (zlen data)) slices ->
  all_ok (map (h5_slice col data) slices) = Ok (map (slice_rows col data) slices).
Proof.
  induction 1 as [|r l Hr _ IH]; [reflexivity|].
  cbn [map all_ok]. now rewrite h5_slice_ok, IH.
Qed.

Lemma concat_map_flat {A B} (f : A -> list B) l : concat (map f l) = flat_map f l.
Proof. induction l; cbn; [reflexivity|]. now f_equal. Qed.

Lemma remote_exact {A B} argsort (col : A -> B) data rs :
  is_argsort argsort -> rs <> [] -> Forall (in_bounds (zlen data)) rs ->
  pairwise_disjoint rs ->
  read_ranges_remote argsort col data rs (total_rows rs)
  = Ok (map Some (all_rows col data rs)).
Proof.
  intros Harg Hne Hin Hpd. unfold read_ranges_remote.
  destruct (make_ordered_slices_ok (zlen data) argsort rs Harg Hne Hpd Hin)
    as (ordered & os & Hos & Hperm & Hidx & Hsl & Hsep & Hlens & Hord).
  rewrite Hos. cbn [bind].
  pose proof (total_rows_nonneg _ (in_bounds_wf _ _ Hin)) as Hnn.
  rewrite np_empty_ok by assumption. cbn [bind]. cbn zeta in *.
  pose proof (filter_nonempty_wf _ _ Hin) as Hwf.
  pose proof (filter_nonempty_indices rs (in_bounds_wf _ _ Hin)) as Hfi.
  set (rs' := filter (fun r => 0 <? snd r - fst r) rs) in *.
  assert (Hwf1 : Forall (in_bounds (zlen data)) rs')
    by (eapply Forall_impl; [|exact Hwf]; cbn beta; intros; tauto).
  assert (Hwf2 : Forall (in_bounds (zlen data)) ordered)
    by (eapply Permutation_Forall; [symmetry; exact Hperm|assumption]).
  assert (Hsl' : Forall (in_bounds (zlen data)) (os_slices os))
    by (eapply Forall_impl; [|exact Hsl]; cbn beta; intros; tauto).
  assert (Hrows : all_rows col data (os_slices os) = all_rows col data ordered).
  { pose proof (all_rows_are col data _ Hsl') as R1.
    pose proof (all_rows_are col data _ Hwf2) as R2.
    rewrite Hidx in R1. pose proof (rows_are_det _ _ _ _ _ R1 R2) as E.
    clear - E. revert E. generalize (all_rows col data ordered).
    induction (all_rows col data (os_slices os)) as [|x l IH]; intros [|y m] E; cbn in E;
      try discriminate; [reflexivity|]. injection E as -> E. f_equal. now apply IH. }
  assert (Hrows' : all_rows col data rs' = all_rows col data rs).
  { pose proof (all_rows_are col data _ Hwf1) as R1.
    pose proof (all_rows_are col data _ Hin) as R2.
    rewrite Hfi in R1. pose proof (rows_are_det _ _ _ _ _ R1 R2) as E.
    clear - E. revert E. generalize (all_rows col data rs).
    induction (all_rows col data rs') as [|x l IH]; intros [|y m] E; cbn in E;
      try discriminate; [reflexivity|]. injection E as -> E. f_equal. now apply IH. }
  assert (Htot : zlen (all_rows col data ordered) = total_rows rs).
  { rewrite <- (all_rows_length col data rs) by assumption. rewrite <- Hrows'.
    unfold zlen, all_rows. f_equal. apply Permutation_length.
    now apply Permutation_flat_map. }
  assert (Hread : (match os_slices os with
        | [] => Ok (repeat None (Z.to_nat (total_rows rs)))
        | sl => request_slices col data sl (repeat None (Z.to_nat (total_rows rs)))
        end) = Ok (map Some (all_rows col data ordered))).
  { rewrite <- Hrows in *. destruct (os_slices os) as [|sl0 sl] eqn:Esl.
    - cbn in Htot |- *. unfold zlen in Htot; cbn in Htot.
      rewrite <- Htot. reflexivity.
    - unfold request_slices. rewrite all_ok_h5 by assumption. cbn [bind].
      rewrite concat_map_flat. fold (all_rows col data (sl0 :: sl)).
      replace (zlen (repeat (@None B) (Z.to_nat (total_rows rs)))) with (total_rows rs)
        by (unfold zlen; rewrite repeat_length; lia).
      rewrite Htot, Z.eqb_refl. reflexivity. }
  rewrite Hread. cbn [bind]. f_equal. unfold reorder_result.
  destruct Hord as [[-> ->]|(o & -> & -> & Hp & Hne')].
  - now rewrite Hrows'.
  - rewrite Hlens.
    assert (Hf : map Some (all_rows col data (take_order rs' o))
                 = flat_map (fun r => map Some (slice_rows col data r)) (take_order rs' o)).
    { unfold all_rows. clear. induction (take_order rs' o); cbn; [reflexivity|].
      now rewrite map_app, IHl. }
    rewrite Hf, split_lengths_pieces.
    + rewrite reorder_cancels by assumption. rewrite <- Hrows'.
      unfold all_rows. clear. induction rs' as [|r l IH]; [reflexivity|]. cbn.
      now rewrite map_app, IH.
    + intros E. apply Permutation_sym in Hperm. rewrite E in Hperm.
      apply Permutation_sym, Permutation_nil in Hperm. congruence.
    + intros r Hr. rewrite zlen_map. apply slice_rows_length.
      rewrite Forall_forall in Hwf2. now apply Hwf2.
Qed.

Lemma separated_strongly l :
  Forall (fun r => fst r < snd r) l -> separated l ->
  StronglySorted (fun a b => snd a < fst b) l.
Proof.
  induction l as [|r l IH]; intros Hwf Hs; constructor.
  - inversion Hwf; subst. apply IH; [assumption|]. destruct l; [exact I|]. now destruct Hs.
  - inversion Hwf as [|? ? Hr Hwf']; subst.
    destruct l as [|r2 l]; [constructor|]. destruct Hs as [H1 H2].
    specialize (IH Hwf' H2). inversion IH as [|? ? _ I3]; subst.
    inversion Hwf' as [|? ? Hr2 _]; subst.
    constructor; [assumption|]. eapply Forall_impl; [|exact I3]. cbn; intros; lia.
Qed.

(** The slices sent to the server. *)
Lemma slices_wellformed n argsort ranges os :
  is_argsort argsort -> Forall (in_bounds n) ranges ->
  make_ordered_slices argsort ranges = Ok os ->
  pairwise_disjoint ranges /\
  Forall (fun r => in_bounds n r /\ fst r < snd r) (os_slices os) /\
  StronglySorted (fun a b => snd a < fst b) (os_slices os) /\
  Permutation (indices_of (os_slices os)) (indices_of ranges).
Proof.
  intros Harg Hin Hos.
  assert (Hne : ranges <> []) by (intros ->; discriminate).
  assert (Hpd : pairwise_disjoint ranges).
  { destruct (overlaps_next (filter (fun r => 0 <? snd r - fst r) ranges)) eqn:E.
    - rewrite <- pairwise_filter.
      set (rs := filter _ ranges) in *.
      destruct (argsort_sorts argsort rs Harg) as (Hp & Hperm & Hs).
      assert (E2 : overlaps_next (take_order rs (argsort (map fst rs))) = false).
      { unfold make_ordered_slices in Hos. destruct ranges; [discriminate|].
        fold rs in Hos. rewrite E in Hos.
        destruct (overlaps_next (take_order rs (argsort (map fst rs)))); [discriminate|reflexivity]. }
      eapply FOP_perm; [exact disjoint_sym|exact Hperm|].
      apply no_overlap_pairwise; [|assumption].
      eapply Permutation_Forall; [symmetry; exact Hperm|].
      apply Forall_forall. intros x Hx. apply filter_In in Hx. destruct Hx as [_ Ex].
      apply Z.ltb_lt in Ex. lia.
    - rewrite <- pairwise_filter. apply no_overlap_pairwise; [|assumption].
      apply Forall_forall. intros x Hx. apply filter_In in Hx. destruct Hx as [_ Ex].
      apply Z.ltb_lt in Ex. lia. }
  destruct (make_ordered_slices_ok n argsort ranges Harg Hne Hpd Hin)
    as (ordered & os' & Hos' & Hperm & Hidx & Hsl & Hsep & _).
  rewrite Hos in Hos'. injection Hos' as <-.
  repeat split; try assumption.
  - apply separated_strongly; [|assumption]. eapply Forall_impl; [|exact Hsl]. cbn beta; intros; tauto.
  - rewrite Hidx. rewrite <- (filter_nonempty_indices ranges) by (eapply in_bounds_wf; exact Hin).
    unfold indices_of. now apply Permutation_flat_map.
Qed.

(** Two ordered ranges that do not overlap. *)
Lemma ordered_disjoint_remote rs :
  StronglySorted (fun a b => snd a <= fst b) rs -> pairwise_disjoint rs.
Proof.
  unfold pairwise_disjoint. induction 1 as [|r l _ IH Hall]; constructor; [|assumption].
  eapply Forall_impl; [|exact Hall]. unfold disjoint_ranges. cbn; intros; lia.
Qed.

Lemma layout_exact {A B} argsort (col : A -> B) data lay rs :
  is_argsort argsort ->
  (forall c, lay = Chunked c -> 0 < c) ->
  rs <> [] ->
  Forall (in_bounds (zlen data)) rs ->
  StronglySorted (fun a b => snd a <= fst b) rs ->
  read_ranges argsort lay col data rs (total_rows rs) = Ok (map Some (all_rows col data rs)).
Proof.
  intros Harg Hc Hne Hin Hs.
  assert (Hord : ordered_ranges rs).
  { clear - Hin Hs. unfold ordered_ranges. induction Hs as [|r l _ IH Hall]; constructor.
    - inversion Hin; subst. auto.
    - inversion Hin as [|? ? (H1 & H2 & H3) Hin']; subst.
      rewrite Forall_forall in *. intros x Hx. specialize (Hall x Hx).
      specialize (Hin' x Hx). destruct Hin' as (? & ? & ?). lia. }
  destruct lay as [|c|]; cbn [read_ranges].
  - now apply unchunked_exact.
  - destruct ((0 <? zlen rs) && _).
    + apply chunked_exact; auto.
    + now apply unchunked_exact.
  - apply remote_exact; auto. now apply ordered_disjoint_remote.
Qed.

Lemma ranges_from_sorted_array n idx :
  0 <= n ->
  Forall (fun i => 0 <= i < n) idx ->
  StronglySorted Z.lt idx ->
  Forall (in_bounds n) (ranges_from_array idx) /\
  StronglySorted (fun a b => snd a <= fst b) (ranges_from_array idx).
Proof.
  intros Hn Hin Hs. destruct idx as [|x idx].
  - cbn. split; repeat constructor; unfold in_bounds; cbn; lia.
  - cbn [ranges_from_array].
    assert (G : forall l start stop,
      0 <= start <= stop -> stop < n ->
      Forall (fun i => 0 <= i < n) l -> StronglySorted Z.lt l ->
      Forall (fun i => stop < i) l ->
      Forall (fun r => in_bounds n r /\ start <= fst r) (ranges_loop start stop l) /\
      StronglySorted (fun a b => snd a <= fst b) (ranges_loop start stop l)).
    { clear. induction l as [|v l IH]; intros start stop H1 H2 Hin Hs Hgt; cbn [ranges_loop].
      - split; repeat constructor; cbn; lia.
      - inversion Hin as [|? ? Hv Hin']; subst. inversion Hs as [|? ? Hs' Hlt]; subst.
        inversion Hgt as [|? ? Hvgt _]; subst.
        destruct (v =? stop + 1) eqn:E; cbn [negb].
        + destruct (IH start v ltac:(lia) ltac:(lia) Hin' Hs' Hlt) as [I1 I2]. auto.
        + destruct (IH v v ltac:(lia) ltac:(lia) Hin' Hs' Hlt) as [I1 I2].
          apply Z.eqb_neq in E. split; constructor.
          * unfold in_bounds; cbn; lia.
          * eapply Forall_impl; [|exact I1]. unfold in_bounds; cbn. intros; lia.
          * assumption.
          * eapply Forall_impl; [|exact I1]. unfold in_bounds; cbn. intros; lia. }
    inversion Hin as [|? ? Hx Hin']; subst. inversion Hs as [|? ? Hs' Hlt]; subst.
    destruct (G idx x x ltac:(lia) ltac:(lia) Hin' Hs' Hlt) as [G1 G2].
    split; [|assumption]. eapply Forall_impl; [|exact G1]. cbn; tauto.
Qed.

(** C116: reading rows that a dataset does not have. *)
From Coq Require Import List ZArith Lia Bool Sorted.
From Verif Require Import Base BaseLemmas RangesModel RangesSpec RangesProofs ChunkProofs OutsideSpec.
Import ListNotations.
Open Scope Z_scope.

(** * Slices *)

Lemma py_slice_rows n r a k : 0 <= n -> py_slice n r = (a, k) ->
  0 <= a /\ 0 <= k /\ a + k <= n /\ forall i, sliced n (fst r) (snd r) i <-> a <= i < a + k.
Proof.
  intros N H. unfold py_slice in H. injection H as <- <-. unfold sliced.
  destruct (fst r <? 0) eqn:A, (snd r <? 0) eqn:B;
    rewrite ?Z.ltb_lt, ?Z.ltb_ge in A, B; (split; [lia|]); (split; [lia|]); (split; [lia|]); intro i; lia.
Qed.

Lemma zrange_sorted a b : StronglySorted Z.lt (zrange a b).
Proof.
  remember (Z.to_nat (b - a)) as k eqn:K. revert a K. induction k as [|k IH]; intros a K.
  - rewrite zrange_nil by lia. constructor.
  - rewrite zrange_cons by lia. constructor; [apply IH; lia|]. apply Forall_forall. intros x I. apply In_zrange in I. lia.
Qed.

Lemma sorted_same (l m : list Z) : StronglySorted Z.lt l -> StronglySorted Z.lt m -> (forall i, In i l <-> In i m) -> l = m.
Proof.
  revert m. induction l as [|x l IH]; intros [|y m] L M E.
  - reflexivity.
  - destruct (proj2 (E y) (or_introl eq_refl)).
  - destruct (proj1 (E x) (or_introl eq_refl)).
  - inversion L as [|? ? L' Lx]; subst. inversion M as [|? ? M' My]; subst. rewrite Forall_forall in Lx, My.
    assert (X : x = y).
    { destruct (proj1 (E x) (or_introl eq_refl)) as [X|X]; [congruence|]. destruct (proj2 (E y) (or_introl eq_refl)) as [Y|Y]; [congruence|].
      apply My in X. apply Lx in Y. lia. }
    subst y. f_equal. apply IH; [assumption|assumption|]. intro i. split; intro I.
    + destruct (proj1 (E i) (or_intror I)) as [->|J]; [|exact J]. apply Lx in I. lia.
    + destruct (proj2 (E i) (or_intror I)) as [->|J]; [|exact J]. apply My in I. lia.
Qed.

Lemma slice_zrange n s e a k : 0 <= n -> py_slice n (s, e) = (a, k) -> forall rows, slice_is n s e rows <-> rows = zrange a (a + k).
Proof.
  intros N P rows. destruct (py_slice_rows n (s, e) a k N P) as (_ & _ & _ & S). cbn [fst snd] in S. split.
  - intros (O & I). apply sorted_same; [exact O|apply zrange_sorted|]. intro i. rewrite I, S, In_zrange. reflexivity.
  - intros ->. split; [apply zrange_sorted|]. intro i. rewrite S, In_zrange. reflexivity.
Qed.

(** * One range *)

(** What a range delivers, as a function (proof device). *)
Definition served {A B} (col : A -> B) (data : list A) (r : range) : option (list B) :=
  if snd r =? fst r then Some []
  else let '(a, k) := py_slice (zlen data) r in
       if k =? snd r - fst r then Some (slice_rows col data (a, a + k))
       else if k =? 1 then Some (concat (repeat (slice_rows col data (a, a + k)) (Z.to_nat (snd r - fst r))))
       else None.

Lemma concat_repeat_length {A} (l : list A) n : length (concat (repeat l n)) = (n * length l)%nat.
Proof. induction n; [reflexivity|]. cbn [repeat concat]. rewrite app_length, IHn. lia. Qed.

Lemma served_length {A B} (col : A -> B) data r l : fst r <= snd r -> served col data r = Some l -> zlen l = snd r - fst r.
Proof.
  destruct r as [s e]. cbn [fst snd]. intros W H. unfold served in H. cbn [fst snd] in H. destruct (e =? s) eqn:E.
  - injection H as <-. apply Z.eqb_eq in E. subst. unfold zlen. cbn. lia.
  - destruct (py_slice (zlen data) (s, e)) as [a k] eqn:P.
    destruct (py_slice_rows _ _ _ _ (zlen_nonneg data) P) as (A0 & K0 & AK & _).
    assert (IB : in_bounds (zlen data) (a, a + k)) by (repeat split; cbn [fst snd]; lia).
    pose proof (slice_rows_length col data _ IB) as L. cbn [fst snd] in L.
    destruct (k =? e - s) eqn:K; [injection H as <-; apply Z.eqb_eq in K; lia|].
    destruct (k =? 1) eqn:K1; [|discriminate]. injection H as <-. apply Z.eqb_eq in K1. unfold zlen in *. rewrite concat_repeat_length. nia.
Qed.

Lemma rows_are_app {A B} (col : A -> B) data i1 i2 o1 o2 : rows_are col data i1 o1 -> rows_are col data i2 o2 -> rows_are col data (i1 ++ i2) (o1 ++ o2).
Proof. apply Forall2_app. Qed.

Lemma served_iff {A B} (col : A -> B) data s e : s <= e ->
  (forall l, served col data (s, e) = Some l -> exists rows, delivers (zlen data) (s, e) rows /\ rows_are col data rows (map Some l))
  /\ (forall rows, delivers (zlen data) (s, e) rows -> exists l, served col data (s, e) = Some l).
Proof.
  intro W. unfold served. cbn [fst snd]. destruct (py_slice (zlen data) (s, e)) as [a k] eqn:P.
  destruct (py_slice_rows _ _ _ _ (zlen_nonneg data) P) as (A0 & K0 & AK & _).
  pose proof (slice_zrange _ _ _ _ _ (zlen_nonneg data) P) as Z0.
  assert (IB : in_bounds (zlen data) (a, a + k)) by (repeat split; cbn [fst snd]; lia).
  pose proof (slice_rows_are col data _ IB) as R. cbn [fst snd] in R. split.
  - intros l H. destruct (e =? s) eqn:E.
    + injection H as <-. apply Z.eqb_eq in E. subst e. exists []. split; [constructor|constructor].
    + apply Z.eqb_neq in E. destruct (k =? e - s) eqn:K.
      * injection H as <-. apply Z.eqb_eq in K. exists (zrange a (a + k)). split; [|exact R].
        apply delivers_all; [lia|apply Z0; reflexivity|rewrite zlen_zrange; lia].
      * destruct (k =? 1) eqn:K1; [|discriminate]. injection H as <-. apply Z.eqb_eq in K1. subst k.
        exists (repeat a (Z.to_nat (e - s))). split.
        -- apply delivers_one; [lia|]. apply Z0. rewrite zrange_cons, zrange_nil by lia. reflexivity.
        -- rewrite zrange_cons, zrange_nil in R by lia. clear -R. induction (Z.to_nat (e - s)) as [|m IH]; [constructor|].
           cbn [repeat concat]. rewrite map_app. exact (rows_are_app _ _ [a] _ _ _ R IH).
  - intros rows D. inversion D as [s'|s' e' rows' L S Z'|s' e' i L S]; subst.
    + rewrite Z.eqb_refl. eauto.
    + replace (e =? s) with false by (symmetry; apply Z.eqb_neq; lia). apply Z0 in S. subst rows. rewrite zlen_zrange in Z'.
      replace (k =? e - s) with true by (symmetry; apply Z.eqb_eq; lia). eauto.
    + replace (e =? s) with false by (symmetry; apply Z.eqb_neq; lia). apply Z0 in S.
      assert (K1 : k = 1). { apply (f_equal zlen) in S. rewrite zlen_zrange in S. change (zlen [i]) with 1 in S. lia. }
      destruct (k =? e - s); [eauto|]. subst k. cbn. eauto.
Qed.

(** * All ranges *)

Fixpoint served_all {A B} (col : A -> B) (data : list A) (rs : list range) : option (list B) :=
  match rs with
  | [] => Some []
  | r :: rs => match served col data r, served_all col data rs with Some l, Some m => Some (l ++ m) | _, _ => None end
  end.

Lemma served_all_length {A B} (col : A -> B) data rs : Forall (fun r => fst r <= snd r) rs -> forall l, served_all col data rs = Some l -> zlen l = total_rows rs.
Proof.
  induction 1 as [|r rs W _ IH]; intros l H; cbn [served_all] in H; [injection H as <-; reflexivity|].
  destruct (served col data r) as [l1|] eqn:S; [|discriminate]. destruct (served_all col data rs) as [l2|]; [|discriminate]. injection H as <-.
  rewrite zlen_app, total_rows_cons, (served_length _ _ _ _ W S), (IH _ eq_refl). reflexivity.
Qed.

Lemma loop_served {A B} (col : A -> B) data rs : forall (done : list B) rest,
  Forall (fun r => fst r <= snd r) rs -> total_rows rs <= zlen rest ->
  read_loop col data rs (zlen done) (map Some done ++ rest)
  = match served_all col data rs with
    | Some l => Ok (map Some (done ++ l) ++ skipn (Z.to_nat (total_rows rs)) rest)
    | None => Err TypeError
    end.
Proof.
  induction rs as [|[s e] rs IH]; intros done rest W T.
  { cbn. now rewrite app_nil_r. }
  inversion W as [|? ? Wr W']; subst. cbn [fst snd] in Wr. rewrite total_rows_cons in *. cbn [fst snd] in *.
  pose proof (total_rows_nonneg _ W') as Tn. cbn [read_loop served_all]. destruct (e =? s) eqn:E.
  - assert (S : served col data (s, e) = Some []) by (unfold served; cbn [fst snd]; rewrite E; reflexivity).
    rewrite S. apply Z.eqb_eq in E. subst e. rewrite Z.sub_diag in *. rewrite IH by (assumption || lia).
    destruct (served_all col data rs); reflexivity.
  - assert (D : read_direct col data (s, e) (map Some done ++ rest) (zlen done, e - s + zlen done)
                = match served col data (s, e) with Some l => Ok (splice (Z.to_nat (zlen done)) (map Some l) (map Some done ++ rest)) | None => Err TypeError end).
    { unfold read_direct, served. cbn [fst snd]. rewrite E. destruct (py_slice (zlen data) (s, e)) as [a k].
      rewrite py_slice_in by (rewrite ?zlen_app, ?zlen_map; unfold zlen in *; lia).
      replace (e - s + zlen done - zlen done) with (e - s) by lia. apply Z.eqb_neq in E.
      assert (M : map (fun x => Some (col x)) (firstn (Z.to_nat k) (skipn (Z.to_nat a) data)) = map Some (slice_rows col data (a, a + k))).
      { unfold slice_rows. cbn [fst snd]. rewrite map_map. replace (a + k - a) with k by lia. reflexivity. }
      rewrite M. destruct (k =? e - s) eqn:K.
      - apply Z.eqb_eq in K. replace (k =? 0) with false by (symmetry; apply Z.eqb_neq; lia). reflexivity.
      - destruct (k =? 1); [|reflexivity]. do 2 f_equal. induction (Z.to_nat (e - s)) as [|m IHm]; [reflexivity|].
        cbn [repeat concat]. rewrite map_app, IHm. reflexivity. }
    rewrite D. destruct (served col data (s, e)) as [l|] eqn:S; [|reflexivity].
    pose proof (served_length _ _ _ _ (Wr : fst (s, e) <= snd (s, e)) S) as L. cbn [fst snd] in L.
    replace (Z.to_nat (zlen done)) with (length (map (@Some B) done)) by (rewrite map_length; unfold zlen; lia).
    set (m := Z.to_nat (e - s)). rewrite <- (firstn_skipn m rest) at 1. rewrite splice_spec.
    2:{ rewrite firstn_length, map_length. unfold zlen in *. lia. }
    rewrite app_assoc, <- map_app. replace (zlen done + (e - s)) with (zlen (done ++ l)) by (rewrite zlen_app; lia).
    rewrite IH; [|assumption|unfold zlen in *; rewrite skipn_length; lia].
    destruct (served_all col data rs) as [l'|]; [|reflexivity]. rewrite <- app_assoc. do 2 f_equal.
    assert (Hsk : forall X (x : list X) p q, skipn p (skipn q x) = skipn (q + p) x).
    { intros X x p q. revert x. induction q; intros x; [reflexivity|]. destruct x; [now rewrite !skipn_nil|]. cbn. apply IHq. }
    rewrite Hsk. f_equal. subst m. lia.
Qed.

Lemma served_all_iff {A B} (col : A -> B) data rs : Forall (fun r => fst r <= snd r) rs ->
  (forall l, served_all col data rs = Some l ->
     exists parts, Forall2 (delivers (zlen data)) rs parts /\ rows_are col data (concat parts) (map Some l))
  /\ (forall parts, Forall2 (delivers (zlen data)) rs parts -> exists l, served_all col data rs = Some l).
Proof.
  induction 1 as [|[s e] rs W _ IH].
  - split; [|cbn; eauto]. intros l H. injection H as <-. exists []. split; constructor.
  - destruct IH as (IH1 & IH2). destruct (served_iff col data s e W) as (S1 & S2). cbn [served_all]. split.
    + intros l H. destruct (served col data (s, e)) as [l1|]; [|discriminate]. destruct (served_all col data rs) as [l2|]; [|discriminate].
      injection H as <-. destruct (S1 _ eq_refl) as (r1 & D1 & R1). destruct (IH1 _ eq_refl) as (p2 & D2 & R2).
      exists (r1 :: p2). split; [constructor; assumption|]. cbn [concat]. rewrite map_app. apply rows_are_app; assumption.
    + intros parts D. inversion D as [|? p ? ps D1 D2]; subst. destruct (S2 _ D1) as (l1 & ->). destruct (IH2 _ D2) as (l2 & ->). eauto.
Qed.

(** The contiguous reader, for any ranges: it succeeds if each range has as many rows as it is long, in the sense of
    Python's slices, or one row, which is repeated. *)
Theorem C116_contiguous : forall (A B : Type) (col : A -> B) (data : list A) (ranges : list (Z * Z)),
  Forall (fun r => fst r <= snd r) ranges ->
  (forall parts, Forall2 (delivers (zlen data)) ranges parts ->
     exists out, read_ranges_unchunked col data ranges (total_rows ranges) = Ok out /\ rows_are col data (concat parts) out)
  /\ ((forall parts, ~ Forall2 (delivers (zlen data)) ranges parts) -> read_ranges_unchunked col data ranges (total_rows ranges) = Err TypeError).
Proof.
  intros A B col data rs W. pose proof (total_rows_nonneg _ W) as T.
  assert (U : read_ranges_unchunked col data rs (total_rows rs) = match served_all col data rs with Some l => Ok (map Some l) | None => Err TypeError end).
  { unfold read_ranges_unchunked. rewrite np_empty_ok by assumption. cbn [bind].
    pose proof (loop_served col data rs [] (repeat None (Z.to_nat (total_rows rs))) W) as L. cbn [map app] in L.
    change (zlen (@nil B)) with 0 in L. rewrite L by (unfold zlen; rewrite repeat_length; lia).
    destruct (served_all col data rs) as [l|]; [|reflexivity]. rewrite skipn_repeat, Nat.sub_diag. cbn [repeat]. rewrite app_nil_r. reflexivity. }
  rewrite U. destruct (served_all_iff col data rs W) as (S1 & S2). split.
  - intros parts D. destruct (S2 _ D) as (l & E). rewrite E. exists (map Some l). split; [reflexivity|].
    destruct (S1 _ E) as (parts' & D' & R). assert (P : parts = parts'); [|subst; exact R].
    clear -D D'. revert parts' D'. induction D as [|r p rs ps D1 _ IH]; intros qs D'; inversion D' as [|? q ? qs' D2 D3]; subst; [reflexivity|].
    f_equal; [|apply IH; exact D3]. destruct r as [s e].
    assert (Q : forall a k, py_slice (zlen data) (s, e) = (a, k) -> p = q).
    { intros a k P. pose proof (slice_zrange _ _ _ _ _ (zlen_nonneg data) P) as Z0.
      inversion D1 as [s1|s1 e1 r1 L1 S1 N1|s1 e1 i1 L1 S1]; subst; inversion D2 as [s2|s2 e2 r2 L2 S2 N2|s2 e2 i2 L2 S2]; subst; try lia; try reflexivity.
      - apply Z0 in S1, S2. congruence.
      - apply Z0 in S1, S2. rewrite <- S2 in S1. subst p. change (zlen [i2]) with 1 in N1. replace (e - s) with 1 by lia. reflexivity.
      - apply Z0 in S1, S2. rewrite <- S1 in S2. subst q. change (zlen [i1]) with 1 in N2. replace (e - s) with 1 by lia. reflexivity.
      - apply Z0 in S1, S2. rewrite <- S1 in S2. injection S2 as ->. reflexivity. }
    destruct (py_slice (zlen data) (s, e)) as [a k]. exact (Q _ _ eq_refl).
  - intro N. destruct (served_all col data rs) as [l|] eqn:E; [|reflexivity]. destruct (S1 _ eq_refl) as (parts & D & _). destruct (N _ D).
Qed.

(** * Lists of rows *)

Lemma ranges_loop_app l : forall start stop a m, a <> last l stop + 1 ->
  ranges_loop start stop (l ++ a :: m) = ranges_loop start stop l ++ ranges_loop a a m.
Proof.
  induction l as [|v l IH]; intros start stop a m H; cbn [app ranges_loop].
  - cbn [last] in H. replace (a =? stop + 1) with false by (symmetry; apply Z.eqb_neq; exact H). reflexivity.
  - assert (L : forall d, last (v :: l) d = last l v).
    { clear. intros d. cbn [last]. destruct l; [reflexivity|]. generalize z. clear z. induction l as [|y l IH]; intro z; [reflexivity|]. cbn [last] in *. apply IH. }
    rewrite L in H. destruct (negb (v =? stop + 1)); [|apply IH; exact H]. rewrite IH by exact H. reflexivity.
Qed.

Lemma ranges_loop_run a b : a < b -> forall start, ranges_loop start a (zrange (a + 1) b) = [(start, b)].
Proof.
  intro L. remember (Z.to_nat (b - a)) as k eqn:K. revert a L K. induction k as [|k IH]; intros a L K start; [lia|].
  destruct (Z.eq_dec (a + 1) b) as [E|E].
  - rewrite zrange_nil by lia. cbn. repeat f_equal. exact E.
  - rewrite zrange_cons by lia. cbn [ranges_loop]. rewrite Z.eqb_refl. cbn [negb]. apply IH; lia.
Qed.

Lemma last_in {A} (l : list A) d : l <> [] -> In (last l d) l.
Proof.
  intro H. destruct (exists_last H) as (l' & x & ->). rewrite last_last. apply in_or_app. right. left. reflexivity.
Qed.

Lemma ranges_app pre a b : a < b -> (forall x, In x pre -> x <> a - 1) ->
  ranges_from_array (pre ++ zrange a b) = (match pre with [] => [] | _ => ranges_from_array pre end) ++ [(a, b)].
Proof.
  intros L N. rewrite (zrange_cons a b L). destruct pre as [|x pre].
  - cbn [app ranges_from_array]. apply ranges_loop_run. exact L.
  - cbn [app ranges_from_array]. rewrite ranges_loop_app.
    + rewrite ranges_loop_run by exact L. reflexivity.
    + destruct pre as [|y pre]; [cbn [last]; specialize (N x (or_introl eq_refl)); lia|].
      assert (I : In (last (y :: pre) x) (y :: pre)) by (apply last_in; discriminate). specialize (N _ (or_intror I)). lia.
Qed.

Lemma sorted_app_lt (l m : list Z) : StronglySorted Z.lt (l ++ m) -> forall x y, In x l -> In y m -> x < y.
Proof.
  induction l as [|a l IH]; intros S x y X Y; [destruct X|]. inversion S as [|? ? S' F]; subst. destruct X as [<-|X]; [|eauto].
  rewrite Forall_forall in F. apply F. apply in_or_app. right. exact Y.
Qed.

Lemma sorted_app_l (l m : list Z) : StronglySorted Z.lt (l ++ m) -> StronglySorted Z.lt l.
Proof.
  induction l as [|y l IH]; intro S; [constructor|]. inversion S as [|? ? S' F]; subst. constructor; [apply IH; exact S'|].
  apply Forall_app in F. tauto.
Qed.

Lemma delivers_beyond n s e rows : 0 <= s -> n < e -> delivers n (s, e) rows -> s = n - 1 /\ rows = repeat (n - 1) (Z.to_nat (e - n + 1)) \/ s = e.
Proof.
  intros S E D. destruct (Z_le_gt_dec n s) as [G|G].
  - (* no rows *)
    inversion D as [?|? ? r L I N|? ? i L I]; subst; [right; reflexivity| |].
    + destruct I as (_ & I). destruct rows as [|x rows]; [change (zlen (@nil Z)) with 0 in N; lia|].
      destruct (proj1 (I x) (or_introl eq_refl)) as (X & Y & _). replace (s <? 0) with false in Y by (symmetry; apply Z.ltb_ge; lia). lia.
    + destruct I as (_ & I). destruct (proj1 (I i) (or_introl eq_refl)) as (X & Y & _). replace (s <? 0) with false in Y by (symmetry; apply Z.ltb_ge; lia). lia.
  - assert (P : py_slice n (s, e) = (s, n - s)).
    { unfold py_slice. cbn [fst snd]. replace (s <? 0) with false by (symmetry; apply Z.ltb_ge; lia).
      replace (e <? 0) with false by (symmetry; apply Z.ltb_ge; lia). f_equal; lia. }
    assert (N0 : 0 <= n) by lia. pose proof (slice_zrange _ _ _ _ _ N0 P) as Z0.
    inversion D as [?|? ? r L I N|? ? i L I]; subst; [right; reflexivity| |].
    + apply Z0 in I. subst rows. rewrite zlen_zrange in N. lia.
    + apply Z0 in I. assert (K : n - s = 1). { apply (f_equal zlen) in I. rewrite zlen_zrange in I. change (zlen [i]) with 1 in I. lia. }
      rewrite zrange_cons, zrange_nil in I by lia. injection I as ->. left. split; [lia|]. f_equal; lia.
Qed.

Lemma ranges_of_in idx r : In r (ranges_from_array idx) -> forall x, fst r <= x < snd r -> In x idx.
Proof.
  intros I x H. rewrite <- (ranges_from_array_indices idx). unfold indices_of. apply in_flat_map. exists r. split; [exact I|]. now apply In_zrange.
Qed.

Lemma Forall2_in_l {X Y} (R : X -> Y -> Prop) l m a : Forall2 R l m -> In a l -> exists b, In b m /\ R a b.
Proof.
  induction 1 as [|x y l m H _ IH]; intro I; [destruct I|]. destruct I as [<-|I]; [exists y; split; [left; reflexivity|exact H]|].
  destruct (IH I) as (b & J & K). exists b. split; [right; exact J|exact K].
Qed.

(** Rows behind the end, of contiguous datasets.  The last row is read again and again if the row before it is not asked for;
    everything else is an error. *)
Theorem C116_rows_behind : forall (A B : Type) (col : A -> B) (data : list A) (idx : list Z) (x : Z),
  StronglySorted Z.lt idx -> Forall (fun i => 0 <= i) idx -> In x idx -> zlen data <= x ->
  let read := read_ranges_unchunked col data (ranges_from_array idx) (zlen idx) in
  (forall pre e, idx = pre ++ zrange (zlen data - 1) e -> 0 < zlen data < e -> ~ In (zlen data - 2) pre ->
     exists out, read = Ok out /\ rows_are col data (pre ++ repeat (zlen data - 1) (Z.to_nat (e - zlen data + 1))) out)
  /\ ((forall pre e, idx = pre ++ zrange (zlen data - 1) e -> 0 < zlen data < e -> In (zlen data - 2) pre) -> read = Err TypeError).
Proof.
  intros A B col data idx x S P I X read. set (n := zlen data) in *. assert (N0 : 0 <= n) by apply zlen_nonneg.
  assert (W := ranges_from_array_wf idx).
  assert (T : total_rows (ranges_from_array idx) = zlen idx) by (rewrite <- zlen_indices_of by exact W; rewrite ranges_from_array_indices; reflexivity).
  destruct (C116_contiguous A B col data (ranges_from_array idx) W) as (C1 & C2). fold n in C1, C2. unfold read. rewrite <- T. split.
  - intros pre e -> (N & E) NI. destruct (C1 ((match pre with [] => [] | _ => map (fun r => zrange (fst r) (snd r)) (ranges_from_array pre) end) ++ [repeat (n - 1) (Z.to_nat (e - n + 1))])) as (out & R & O).
    { rewrite ranges_app by (try lia; intros y Y; intros ->; apply NI; replace (n - 2) with (n - 1 - 1) by lia; exact Y).
      apply Forall2_app.
      - destruct pre as [|p pre']; [constructor|]. remember (p :: pre') as q eqn:Q.
        assert (F : Forall (fun r => fst r < snd r /\ 0 <= fst r /\ snd r <= n) (ranges_from_array q)).
        { apply Forall_forall. intros r Ir. pose proof (ranges_from_array_nonempty q ltac:(subst q; discriminate)) as NE.
          rewrite Forall_forall in NE. pose proof (NE _ Ir) as L. split; [exact L|]. split.
          - pose proof (ranges_of_in q r Ir (fst r) ltac:(lia)) as J. rewrite Forall_forall in P. apply P. apply in_or_app. left. exact J.
          - pose proof (ranges_of_in q r Ir (snd r - 1) ltac:(lia)) as J.
            pose proof (sorted_app_lt _ _ S (snd r - 1) (n - 1) J) as K. rewrite In_zrange in K. specialize (K ltac:(lia)). lia. }
        clear -F N0. induction F as [|[s t] rs (L & A0 & Bn) _ IH]; [constructor|]. cbn [map fst snd] in *. constructor; [|exact IH].
        apply delivers_all; [exact L| |rewrite zlen_zrange; lia]. apply (slice_zrange n s t s (t - s)); [exact N0|apply py_slice_in; lia|]. f_equal. lia.
      - constructor; [|constructor]. replace (e - n + 1) with (e - (n - 1)) by lia. apply delivers_one; [lia|].
        apply (slice_zrange n (n - 1) e (n - 1) 1); [exact N0| |rewrite zrange_cons, zrange_nil by lia; reflexivity].
        unfold py_slice. cbn [fst snd]. replace (n - 1 <? 0) with false by (symmetry; apply Z.ltb_ge; lia).
        replace (e <? 0) with false by (symmetry; apply Z.ltb_ge; lia). f_equal; lia. }
    exists out. split; [exact R|]. rewrite concat_app in O. cbn [concat] in O. rewrite app_nil_r in O.
    assert (Q : concat (match pre with [] => [] | _ => map (fun r => zrange (fst r) (snd r)) (ranges_from_array pre) end) = pre).
    { destruct pre; [reflexivity|]. rewrite <- flat_map_concat_map. apply (ranges_from_array_indices (z :: pre)). }
    rewrite Q in O. exact O.
  - intro NF. apply C2. intros parts D.
    assert (NE : idx <> []) by (intros ->; destruct I).
    pose proof (ranges_from_array_nonempty idx NE) as NR. rewrite Forall_forall in NR.
    assert (Hx : exists r, In r (ranges_from_array idx) /\ fst r <= x < snd r).
    { rewrite <- (ranges_from_array_indices idx) in I. unfold indices_of in I. apply in_flat_map in I. destruct I as (r & J & K). apply In_zrange in K. eauto. }
    assert (Start : forall r, In r (ranges_from_array idx) -> n < snd r -> fst r = n - 1).
    { intros r J K. destruct (Forall2_in_l _ _ _ _ D J) as (rows & _ & Dr). destruct r as [s e]. cbn [fst snd] in *.
      pose proof (NR _ J) as L. cbn [fst snd] in L.
      assert (S0 : 0 <= s). { rewrite Forall_forall in P. apply P. apply (ranges_of_in idx (s, e) J). cbn [fst snd]. lia. }
      destruct (delivers_beyond n s e rows S0 K Dr) as [(Q & _)|Q]; lia. }
    destruct Hx as (r & J & K). pose proof (Start r J ltac:(lia)) as Sr. apply in_split in J. destruct J as (R1 & R2 & Er).
    assert (Ei : idx = indices_of R1 ++ zrange (n - 1) (snd r) ++ indices_of R2).
    { rewrite <- (ranges_from_array_indices idx), Er, indices_of_app. cbn [indices_of flat_map]. rewrite Sr. reflexivity. }
    assert (R2n : R2 = []).
    { destruct R2 as [|q R2]; [reflexivity|]. exfalso.
      assert (Iq : In q (ranges_from_array idx)) by (rewrite Er; apply in_or_app; right; right; left; reflexivity).
      pose proof (NR _ Iq) as Lq. assert (Jq : In (fst q) (indices_of (q :: R2))) by (unfold indices_of; cbn [flat_map]; apply in_or_app; left; apply In_zrange; lia).
      assert (Q : forall y, n - 1 <= y < snd r -> y < fst q).
      { intros y Y. rewrite Ei in S. rewrite app_assoc in S. apply (sorted_app_lt _ _ S); [apply in_or_app; right; apply In_zrange; exact Y|exact Jq]. }
      pose proof (Q (snd r - 1) ltac:(lia)) as Q1. pose proof (Start q Iq ltac:(lia)) as Q2. lia. }
    subst R2. cbn [indices_of flat_map] in Ei. rewrite app_nil_r in Ei.
    assert (Npos : 0 < n). { destruct (Z.eq_dec n 0) as [Z0|]; [|lia]. rewrite Forall_forall in P. pose proof (P (fst r)) as Q. rewrite Sr in Q.
      assert (In (n - 1) idx) by (rewrite Ei; apply in_or_app; right; apply In_zrange; lia). specialize (Q H). lia. }
    pose proof (NF _ _ Ei ltac:(lia)) as Bad.
    (* the range before ends at n - 1 *)
    destruct R1 as [|r0 R1] using rev_ind; [destruct Bad|]. clear IHR1. rewrite indices_of_app in Bad. apply in_app_or in Bad.
    assert (I0 : In r0 (ranges_from_array idx)) by (rewrite Er; apply in_or_app; left; apply in_or_app; right; left; reflexivity).
    pose proof (NR _ I0) as L0.
    assert (Sep : snd r0 <> fst r).
    { apply (ranges_from_array_maximal idx (length R1) r0 r); rewrite Er, <- app_assoc; [rewrite nth_error_app2, Nat.sub_diag by lia; reflexivity|].
      rewrite nth_error_app2 by lia. replace (Datatypes.S (length R1) - length R1)%nat with 1%nat by lia. reflexivity. }
    rewrite Ei, indices_of_app in S. cbn [indices_of flat_map] in S, Bad. rewrite app_nil_r in S, Bad.
    destruct Bad as [Bad|Bad].
    + pose proof (sorted_app_lt (flat_map (fun r : Z * Z => zrange (fst r) (snd r)) R1) (zrange (fst r0) (snd r0))) as Q.
      assert (S1 : StronglySorted Z.lt (flat_map (fun r : Z * Z => zrange (fst r) (snd r)) R1 ++ zrange (fst r0) (snd r0))).
      { exact (sorted_app_l _ _ S). }
      specialize (Q S1 (n - 2) (fst r0) Bad). rewrite In_zrange in Q. specialize (Q ltac:(lia)).
      pose proof (sorted_app_lt _ _ S (fst r0) (n - 1)) as Q2. rewrite in_app_iff, !In_zrange in Q2. specialize (Q2 ltac:(right; lia) ltac:(lia)). lia.
    + apply In_zrange in Bad. pose proof (sorted_app_lt _ _ S (snd r0 - 1) (n - 1)) as Q2. rewrite in_app_iff, !In_zrange in Q2.
      specialize (Q2 ltac:(right; lia) ltac:(lia)). lia.
Qed.

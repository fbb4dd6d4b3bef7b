(** Property C105: byte orders. *)
From Coq Require Import String List ZArith Lia Bool Sorted.
From Verif Require Import Base BaseLemmas NamesModel NamesProofs RangesModel RangesSpec MaskModel MaskSpec MaskHistProofs
     ReaderModel ReaderSpec ReaderProofs ReaderTheorems OrderModel OrderSpec OrderProofs.
Import ListNotations.
Open Scope Z_scope.

(** Every value stays what it was, for numbers, byte strings and structures. *)
Theorem C105_values : forall (native : order) (x : array) (vs : list (list value)),
  simple (a_type x) -> shows x vs -> shows (to_native native x) vs.
Proof. exact to_native_shows. Qed.

(** The array is in the order of the machine afterwards. *)
Theorem C105_native : forall (native : order) (x : array), in_order native (a_type (to_native native x)).
Proof. exact to_native_type. Qed.

(** Arrays that are native already are not touched, so that converting again changes nothing. *)
Theorem C105_untouched : forall (native : order) (x : array),
  in_order native (a_type x) -> to_native native x = x.
Proof.
  intros native x H. unfold to_native. apply (proj1 (isnative_iff native)) in H. now rewrite H.
Qed.

Theorem C105_again : forall (native : order) (x : array),
  to_native native (to_native native x) = to_native native x.
Proof. intros native x. apply C105_untouched, C105_native. Qed.

(** The bytes of an array stand for one value each. *)
Lemma little_unique : forall b n m, little b n -> little b m -> n = m.
Proof.
  intros b n m H. revert m. induction H as [|x l n H IH]; intros m Hm; inversion Hm; subst; [reflexivity|].
  now rewrite (IH _ H3).
Qed.

Lemma concat_unique : forall (size : nat) (p q : list (list byte)),
  Forall (fun x => length x = size) p -> Forall (fun x => length x = size) q ->
  length p = length q -> concat p = concat q -> p = q.
Proof.
  intros size p. induction p as [|a p IH]; intros [|b q] Hp Hq Hl E; try discriminate; [reflexivity|].
  inversion Hp as [|? ? Ha Hp']; subst. inversion Hq as [|? ? Hb Hq']; subst. cbn in E, Hl.
  assert (a = b /\ concat p = concat q) as [-> E'].
  { clear - E Hb. revert b Hb E. induction a as [|x a IHa]; intros [|y b] Hb E; try discriminate; [auto|].
    cbn in *. injection E as -> E. destruct (IHa b) as [-> ->]; auto. }
  f_equal. apply IH; auto.
Qed.

Lemma means_unique :
  (forall d b v w, means d b v -> means d b w -> v = w) /\
  (forall l b v w, means_fields l b v -> means_fields l b w -> v = w).
Proof.
  assert (X : (forall d b v, means d b v -> forall w, means d b w -> v = w) /\
              (forall l b v, means_fields l b v -> forall w, means_fields l b w -> v = w)).
  { apply dtype_fields_ind.
    - intros o s k b v H w H'. inversion H as [o1 s1 p ns Hs Hn| |]; subst.
      inversion H' as [o1 s1 q ms Ht Hm El Ec| |]; subst.
      assert (q = p) by (apply (concat_unique s); auto). subst q. f_equal.
      clear - Hn Hm. revert ms Hm. induction Hn as [|y n p ns Hy Hn IH]; intros ms Hm; inversion Hm as [|y' m p' ms' Hy' Hm']; subst; [reflexivity|].
      f_equal; [|auto]. inversion Hy; subst; inversion Hy'; subst; eapply little_unique; eassumption.
    - intros s b v H w H'. inversion H; subst. inversion H'; subst. reflexivity.
    - intros l IH b v H w H'. inversion H as [| |l1 b1 vs Hv]; subst. inversion H' as [| |l1 b1 ws Hw]; subst.
      f_equal. exact (IH _ _ Hv _ Hw).
    - intros gap b v H w H'. inversion H; subst. inversion H'; subst. reflexivity.
    - intros gap n d IHd l IHl b v H w H'.
      inversion H as [|g n1 d1 l1 b1 r v1 vs Hd Hl]; subst.
      inversion H' as [|g' n1 d1 l1 b1' r' w1 ws Hd' Hl' Eg Eb]; subst.
      assert (g' = g /\ b1' ++ r' = b1 ++ r) as [-> E].
      { clear - Eg Eb. revert g Eg Eb. induction g' as [|x g' IHg]; intros [|y g] Eg Eb; try discriminate; [auto|].
        cbn in *. injection Eb as -> Eb. destruct (IHg g) as [-> ->]; auto. }
      assert (Es : length b1' = length b1).
      { now rewrite (proj1 means_size _ _ _ Hd), (proj1 means_size _ _ _ Hd'). }
      assert (b1' = b1 /\ r' = r) as [-> ->].
      { clear - Es E. revert b1 Es E. induction b1' as [|x b' IHg]; intros [|y b] Es E; try discriminate; [auto|].
        cbn in *. injection E as -> E. destruct (IHg b) as [-> ->]; auto. }
      rewrite (IHd _ _ Hd _ Hd'), (IHl _ _ Hl _ Hl'). reflexivity. }
  split; intros; [eapply (proj1 X)|eapply (proj2 X)]; eassumption.
Qed.

Theorem C105_one_value : forall (x : array) (vs ws : list (list value)), shows x vs -> shows x ws -> vs = ws.
Proof.
  intros [d rows] vs ws. unfold shows. cbn. intros H. revert ws.
  induction H as [|r v rows vs Hr H IH]; intros ws Hw; inversion Hw as [|r' w rows' ws' Hr' Hw']; subst; [reflexivity|].
  f_equal; [|auto]. clear - Hr Hr'. revert w Hr'. induction Hr; intros w Hr'; inversion Hr'; subst; [reflexivity|].
  f_equal; [|auto]. eapply (proj1 means_unique); eassumption.
Qed.

(** Structures inside structures whose own fields differ in order: numpy swaps all of them. *)
Definition inner : fields := FCons 0 (txt "a") (Number Big 2 1) (FCons 0 (txt "b") (Number Little 2 1) (FEnd 0)).
Definition outer : dtype := Struct (FCons 0 (txt "s") (Struct inner) (FEnd 0)).

Theorem C105_nested_refuted : exists (x : array) (vs : list (list value)),
  shows x vs /\ ~ shows (to_native Little x) vs.
Proof.
  set (x := mk_array outer [[[0; 1; 1; 0]]]).
  set (vs := [[VStruct [(txt "s", VStruct [(txt "a", VNumber [1]); (txt "b", VNumber [1])])]]]).
  exists x, vs.
  assert (L : forall a b, little [a; b] (a + 256 * (b + 256 * 0))) by (intros; repeat constructor).
  assert (N : forall o a b n, number o [a; b] n -> means (Number o 2 1) [a; b] (VNumber [n])).
  { intros o a b n H. apply (means_number o 2 [[a; b]] [n]); repeat constructor; assumption. }
  assert (S : forall o1 o2 a b c d n m, number o1 [a; b] n -> number o2 [c; d] m ->
            means (Struct (FCons 0 (txt "s") (Struct (FCons 0 (txt "a") (Number o1 2 1) (FCons 0 (txt "b") (Number o2 2 1) (FEnd 0)))) (FEnd 0)))
                  [a; b; c; d] (VStruct [(txt "s", VStruct [(txt "a", VNumber [n]); (txt "b", VNumber [m])])])).
  { intros. constructor. apply (means_cons [] _ _ _ [a; b; c; d] []); [|apply (means_end [])].
    constructor. apply (means_cons [] _ _ _ [a; b] [c; d]); [now apply N|].
    apply (means_cons [] _ _ _ [c; d] []); [now apply N|apply (means_end [])]. }
  split.
  - constructor; [|constructor]. constructor; [|constructor]. apply S; constructor; apply (L 1 0).
  - intros H.
    assert (H' : shows (to_native Little x)
                 [[VStruct [(txt "s", VStruct [(txt "a", VNumber [1]); (txt "b", VNumber [256])])]]]).
    { constructor; [|constructor]. constructor; [|constructor]. apply S; constructor; [apply (L 1 0)|apply (L 0 1)]. }
    pose proof (C105_one_value _ _ _ H H') as E. discriminate E.
Qed.

(** * Reading *)

(** The values of the file. *)
Definition values_of (f : field (list byte)) (vals : list (list value)) : field value :=
  mk_field (fd_layout f) (fd_2d f) (fd_width f) vals.

(** With a mask, what is read is native and has the values of the file in the rows that are selected.  With
    numba, chunked datasets have to be native in the file. *)
Theorem C105_masked_read :
  forall (numba : bool) (native : order) (argsort : list Z -> list nat) (mm : mask_meta) (st : mask_state)
         (k : nat) (mk : mask_key),
  is_argsort argsort -> wf_meta mm -> reachable mm st ->
  nth_error (mm_keys mm) k = Some mk -> cells_tile 0 (key_cells mk) (key_total mk) ->
  exists rows,
    (forall i, In i rows <-> selected st k i) /\ StronglySorted Z.le rows /\
    forall (d : dtype) (f : field (list byte)) (column : option nat) (vals : list (list value)),
      field_of (key_total mk) f -> column_ok f column ->
      (fd_layout f = Remote -> NoDup rows /\ rows <> []) ->
      (numba = true -> (forall c, fd_layout f <> Chunked c) \/ in_order native d) ->
      simple d -> Forall2 (Forall2 (means d)) (fd_rows f) vals ->
      exists x entries, read_array numba native argsort (group_mask (Some st) k) column d f = Ok x /\
        in_order native (a_type x) /\ shows x entries /\ shows_rows (values_of f vals) column rows (map Some entries).
Proof.
  intros numba native argsort mm st k mk Harg Hw Hr Hk Ht.
  destruct (C20_fields_aligned (list byte) argsort mm st k mk Harg Hw Hr Hk Ht) as (rows & Hsel & Hs & Hread).
  destruct (group_mask_spec mm st k mk Hw Hr Hk Ht) as ([rs size] & Egm & _).
  exists rows. split; [assumption|]. split; [assumption|].
  intros d f column vals Hf Hc Hrem Hnumba Hsimple Hvals.
  destruct (Hread f column Hf Hc Hrem) as (out & Eout & Hout).
  destruct (initialised_shows _ _ _ _ Hout) as (rws & Ei & ->).
  destruct (entries_of_values d f vals column rows rws Hvals Hout) as (entries & He & Hshow).
  exists (to_native native (mk_array d rws)), entries. split.
  - unfold read_array. rewrite Eout, Egm. cbn [bind].
    assert (X : numba && by_chunks (fd_layout f) rs && negb (isnative native d) = false).
    { destruct numba; [|reflexivity]. destruct (Hnumba eq_refl) as [Hl|Hn].
      - destruct (fd_layout f) as [|c|]; [reflexivity|now destruct (Hl c)|reflexivity].
      - apply (proj1 (isnative_iff native)) in Hn. rewrite Hn. apply andb_false_r. }
    rewrite X, Ei. reflexivity.
  - split; [apply to_native_type|]. split; [|assumption]. apply to_native_shows; [exact Hsimple|exact He].
Qed.

(** Without a mask, the array has the values of the file and the order of the file. *)
Theorem C105_unmasked_read :
  forall (numba : bool) (native : order) (argsort : list Z -> list nat) (n : Z) (d : dtype) (f : field (list byte))
         (column : option nat) (vals : list (list value)),
  field_of n f -> column_ok f column -> Forall2 (Forall2 (means d)) (fd_rows f) vals ->
  exists x entries, read_array numba native argsort None column d f = Ok x /\ a_type x = d /\
    shows x entries /\ shows_rows (values_of f vals) column (zrange 0 n) (map Some entries).
Proof.
  intros numba native argsort n d f column vals Hf Hc Hvals.
  destruct (C20_unmasked_field (list byte) argsort n f column Hf Hc) as (out & Eout & Hout).
  destruct (initialised_shows _ _ _ _ Hout) as (rws & Ei & ->).
  destruct (entries_of_values d f vals column _ rws Hvals Hout) as (entries & He & Hshow).
  exists (mk_array d rws), entries. unfold read_array. rewrite Eout. cbn [bind]. rewrite Ei. cbn [bind].
  repeat split; assumption.
Qed.

(** Chunked datasets that are not native cannot be read with a mask of short ranges when numba is there,
    although the reader would have converted them. *)
Theorem C105_compiled_refuted :
  forall (native : order) (argsort : list Z -> list nat) (ranges : list (Z * Z)) (size c : Z) (column : option nat)
         (d : dtype) (f : field (list byte)) (rows : list (option (list (list byte)))),
  fd_layout f = Chunked c -> ranges <> [] -> total_rows ranges < 500000 * zlen ranges -> ~ in_order native d ->
  read_field argsort (Some (ranges, size)) column f = Ok rows ->
  read_array true native argsort (Some (ranges, size)) column d f = Err ValueError.
Proof.
  intros native argsort rs size c column d f rows Hl Hne Hsum Hn Hr. unfold read_array. rewrite Hr. cbn [bind andb].
  unfold by_chunks. rewrite Hl.
  assert (X : isnative native d = false).
  { destruct (isnative native d) eqn:E; [|reflexivity]. exfalso. now apply Hn, (proj1 (isnative_iff native)). }
  assert (Y : (0 <? zlen rs) = true).
  { apply Z.ltb_lt. destruct rs; [congruence|]. unfold zlen. cbn [length]. lia. }
  unfold total_rows in Hsum. apply Z.ltb_lt in Hsum. now rewrite X, Y, Hsum.
Qed.

(** Long ranges are not read chunk by chunk: numba makes no difference for them, nor for native types. *)
Theorem C105_numba_unused :
  forall (native : order) (argsort : list Z -> list nat) (ranges : list (Z * Z)) (size : Z) (column : option nat)
         (d : dtype) (f : field (list byte)),
  ranges = [] \/ 500000 * zlen ranges <= total_rows ranges \/ in_order native d \/ (forall c, fd_layout f <> Chunked c) ->
  read_array true native argsort (Some (ranges, size)) column d f
  = read_array false native argsort (Some (ranges, size)) column d f.
Proof.
  intros native argsort rs size column d f H. unfold read_array.
  assert (X : by_chunks (fd_layout f) rs && negb (isnative native d) = false).
  { apply andb_false_iff. unfold by_chunks. destruct H as [->|[H|[H|H]]].
    - left. destruct (fd_layout f); reflexivity.
    - left. destruct (fd_layout f); try reflexivity. apply andb_false_iff. right. apply Z.ltb_ge. exact H.
    - right. apply (proj2 (proj1 (isnative_iff native) d)) in H. now rewrite H.
    - left. destruct (fd_layout f) as [|ch|] eqn:E; try reflexivity. now destruct (H ch). }
  rewrite <- andb_assoc, X. reflexivity.
Qed.

(** * Cases *)

(** A structure of numbers of both orders, a byte string and gaps; a complex number. *)
Definition mixed : dtype :=
  Struct (FCons 1 (txt "x") (Number Big 2 2) (FCons 0 (txt "y") (Number Little 2 1)
         (FCons 2 (txt "t") (Opaque 2) (FEnd 1)))).

Example C105_mixed_case :
  simple mixed /\
  to_native Little (mk_array mixed [[[9; 1; 2; 3; 4; 5; 6; 9; 9; 7; 8; 9]]]) =
  mk_array (Struct (FCons 1 (txt "x") (Number Little 2 2) (FCons 0 (txt "y") (Number Little 2 1)
                   (FCons 2 (txt "t") (Opaque 2) (FEnd 1)))))
           [[[9; 2; 1; 4; 3; 5; 6; 9; 9; 7; 8; 9]]] /\
  to_native Big (mk_array mixed [[[9; 1; 2; 3; 4; 5; 6; 9; 9; 7; 8; 9]]]) =
  mk_array (Struct (FCons 1 (txt "x") (Number Big 2 2) (FCons 0 (txt "y") (Number Big 2 1)
                   (FCons 2 (txt "t") (Opaque 2) (FEnd 1)))))
           [[[9; 1; 2; 3; 4; 6; 5; 9; 9; 7; 8; 9]]] /\
  shows (mk_array mixed [[[9; 1; 2; 3; 4; 5; 6; 9; 9; 7; 8; 9]]])
        [[VStruct [(txt "x", VNumber [258; 772]); (txt "y", VNumber [1541]); (txt "t", VOpaque [7; 8])]]].
Proof.
  split; [|split; [reflexivity|split; [reflexivity|]]].
  - cbn. repeat split; try (exists Big; constructor; fail); try (exists Little; constructor; fail);
      intros H; repeat (destruct H as [H|H]; [discriminate H|]); exact H.
  - constructor; [|constructor]. constructor; [|constructor]. cbn. constructor.
    apply (means_cons [9] _ _ _ [1; 2; 3; 4] [5; 6; 9; 9; 7; 8; 9]).
    { apply (means_number Big 2 [[1; 2]; [3; 4]] [258; 772]); [repeat constructor|].
      constructor; [|constructor; [|constructor]]; constructor; cbn.
      - apply (little_cons 2 [1] 1), (little_cons 1 [] 0). constructor.
      - apply (little_cons 4 [3] 3), (little_cons 3 [] 0). constructor. }
    apply (means_cons [] _ _ _ [5; 6] [9; 9; 7; 8; 9]).
    { apply (means_number Little 2 [[5; 6]] [1541]); [repeat constructor|].
      constructor; [|constructor]. constructor. apply (little_cons 5 [6] 6), (little_cons 6 [] 0). constructor. }
    apply (means_cons [9; 9] _ _ _ [7; 8] [9]); [apply (means_opaque [7; 8])|apply (means_end [9])].
Qed.

(** Reading two of three rows of big-endian numbers on a little-endian machine; the same from chunks, without
    and with numba. *)
Definition stored (lay : layout) : field (list byte) := mk_field lay false 0 [[[1; 2]]; [[3; 4]]; [[5; 6]]].
Definition ids (l : list Z) : list nat := seq 0 (length l).

Example C105_read_case :
  read_array true Little ids (Some ([(1, 3)], 2)) None (Number Big 2 1) (stored Contiguous) =
    Ok (mk_array (Number Little 2 1) [[[4; 3]]; [[6; 5]]]) /\
  read_array false Little ids (Some ([(1, 3)], 2)) None (Number Big 2 1) (stored (Chunked 2)) =
    Ok (mk_array (Number Little 2 1) [[[4; 3]]; [[6; 5]]]) /\
  read_array true Little ids (Some ([(1, 3)], 2)) None (Number Big 2 1) (stored (Chunked 2)) = Err ValueError /\
  read_array true Little ids None None (Number Big 2 1) (stored (Chunked 2)) =
    Ok (mk_array (Number Big 2 1) [[[1; 2]]; [[3; 4]]; [[5; 6]]]) /\
  [(1, 3)] <> [] /\ total_rows [(1, 3)] < 500000 * zlen [(1, 3)] /\ ~ in_order Little (Number Big 2 1) /\
  field_of 3 (stored (Chunked 2)).
Proof.
  repeat split; try reflexivity; try discriminate.
  - intros H. inversion H. lia.
  - intros c H. injection H as <-. lia.
Qed.

Print Assumptions C105_values.
Print Assumptions C105_native.
Print Assumptions C105_untouched.
Print Assumptions C105_again.
Print Assumptions C105_one_value.
Print Assumptions C105_nested_refuted.
Print Assumptions C105_masked_read.
Print Assumptions C105_unmasked_read.
Print Assumptions C105_compiled_refuted.
Print Assumptions C105_numba_unused.

(** Reads of datasets with any number of axes compared with reads of rows. *)
From Coq Require Import List ZArith Lia Bool.
From Verif Require Import Base BaseLemmas RangesModel RangesSpec RangesProofs ChunkProofs ShapeModel ShapeSpec.
Import ListNotations.
Open Scope Z_scope.

(** * Lists of lengths *)

Lemma prodZ_cons d l : prodZ (d :: l) = d * prodZ l.
Proof. reflexivity. Qed.

Lemma prodZ_app l m : prodZ (l ++ m) = prodZ l * prodZ m.
Proof. induction l as [|d l IH]; cbn [app]; [change (prodZ []) with 1; lia|]. rewrite !prodZ_cons, IH. ring. Qed.

Lemma prodZ_rev l : prodZ (rev l) = prodZ l.
Proof. induction l as [|d l IH]; [reflexivity|]. cbn [rev]. rewrite prodZ_app, IH, !prodZ_cons. change (prodZ []) with 1. ring. Qed.

Lemma prodZ_pos l : Forall (fun d => 1 <= d) l -> 1 <= prodZ l.
Proof. induction 1 as [|d l H _ IH]; [cbn; lia|]. rewrite prodZ_cons. nia. Qed.

Lemma prodZ_ones l : ones l -> prodZ l = 1.
Proof. induction 1 as [|d l H _ IH]; [reflexivity|]. rewrite prodZ_cons, IH. lia. Qed.

Lemma ones_rev l : ones (rev l) <-> ones l.
Proof. unfold ones. rewrite !Forall_forall. split; intros H x I; apply H; [apply -> in_rev|apply in_rev]; assumption. Qed.

Lemma positive_rev l : Forall (fun d => 1 <= d) (rev l) <-> Forall (fun d => 1 <= d) l.
Proof. rewrite !Forall_forall. split; intros H x I; apply H; [apply -> in_rev|apply in_rev]; assumption. Qed.

(** * What can be broadcast *)

Lemma none_long source : Forall (fun d => 1 <= d) source -> existsb (fun t => 1 <? t) source = false <-> ones source.
Proof.
  induction 1 as [|d l H _ IH]; [split; [constructor|reflexivity]|]. cbn [existsb]. rewrite orb_false_iff, IH. split.
  - intros (A & B). apply Z.ltb_ge in A. constructor; [lia|exact B].
  - intros O. inversion O; subst. split; [reflexivity|assumption].
Qed.

Lemma expand_rev_error count source e : expand_rev count source = Err e -> e = TypeError.
Proof.
  revert source. induction count as [|c count IH]; intros source; cbn [expand_rev].
  - destruct (existsb _ source); congruence.
  - destruct source as [|t source].
    + destruct (expand_rev count []) eqn:E; cbn [bind]; [discriminate|]. intros H. injection H as <-. eauto.
    + destruct ((t =? 1) || (c =? t)); [|congruence].
      destruct (expand_rev count source) eqn:E; cbn [bind]; [discriminate|]. intros H. injection H as <-. eauto.
Qed.

Lemma expand_shape_error count source e : expand_shape count source = Err e -> e = TypeError.
Proof.
  unfold expand_shape. destruct (expand_rev (rev count) (rev source)) eqn:E; cbn [bind]; [discriminate|].
  intros H. injection H as <-. eapply expand_rev_error; eauto.
Qed.

Lemma expand_rev_block count : forall source block, Forall (fun d => 1 <= d) source -> expand_rev count source = Ok block ->
  Forall2 (fun c t => t = 1 \/ t = c) count block /\ prodZ block = prodZ source /\ Forall (fun d => 1 <= d) block.
Proof.
  induction count as [|c count IH]; intros source block W; cbn [expand_rev].
  - destruct (existsb _ source) eqn:E; [discriminate|]. intros H. injection H as <-.
    apply none_long in E; [|assumption]. split; [constructor|]. split; [rewrite (prodZ_ones _ E); reflexivity|constructor].
  - destruct source as [|t source].
    + destruct (expand_rev count []) as [b|] eqn:E; cbn [bind]; [|discriminate]. intros H. injection H as <-.
      destruct (IH [] b W E) as (A & B & C). split; [constructor; auto|]. split; [rewrite prodZ_cons, B; reflexivity|constructor; [lia|assumption]].
    + inversion W; subst. destruct ((t =? 1) || (c =? t)) eqn:T; [|discriminate].
      destruct (expand_rev count source) as [b|] eqn:E; cbn [bind]; [|discriminate]. intros H. injection H as <-.
      destruct (IH source b) as (A & B & C); [assumption|assumption|]. apply orb_true_iff in T. rewrite !Z.eqb_eq in T.
      split; [constructor; [lia|assumption]|]. split; [rewrite !prodZ_cons, B; reflexivity|constructor; assumption].
Qed.

Lemma block_full count : forall block, Forall (fun d => 1 <= d) count -> Forall2 (fun c t => t = 1 \/ t = c) count block ->
  prodZ block = prodZ count -> block = count.
Proof.
  assert (Le : forall count block, Forall (fun d => 1 <= d) count -> Forall2 (fun c t => t = 1 \/ t = c) count block ->
            1 <= prodZ block <= prodZ count).
  { intros count0 block W F. revert W. induction F as [|c t count0 block T _ IH]; intros W; [cbn; lia|].
    inversion W; subst. specialize (IH H2). rewrite !prodZ_cons. destruct T; subst; nia. }
  induction count as [|c count IH]; intros block W F P; inversion F as [|? t ? b T F']; subst; [reflexivity|].
  inversion W as [|? ? Wc W']; subst. rewrite !prodZ_cons in P. pose proof (Le _ _ W' F') as L.
  assert (t = c) by (destruct T; [|assumption]; subst; nia). subst t. f_equal. apply IH; [assumption|assumption|nia].
Qed.

Lemma expand_shape_full count source block : Forall (fun d => 1 <= d) count -> Forall (fun d => 1 <= d) source ->
  expand_shape count source = Ok block -> prodZ source = prodZ count -> block = count.
Proof.
  intros Wc Ws E P. unfold expand_shape in E. destruct (expand_rev (rev count) (rev source)) as [b|] eqn:R; cbn [bind] in E; [|discriminate].
  injection E as <-. apply expand_rev_block in R as (F & PB & _); [|now apply positive_rev].
  apply block_full in F; [subst b; apply rev_involutive|now apply positive_rev|]. rewrite PB, !prodZ_rev. exact P.
Qed.

(** Equal axes. *)
Lemma expand_rev_same l count rest : expand_rev (l ++ count) (l ++ rest) = do b <- expand_rev count rest; Ok (l ++ b).
Proof.
  induction l as [|d l IH]; cbn [app expand_rev]; [destruct (expand_rev count rest); reflexivity|].
  rewrite Z.eqb_refl, orb_true_r, IH. destruct (expand_rev count rest); reflexivity.
Qed.

Lemma expand_shape_same axes m n : expand_shape (m :: axes) (n :: axes) = if (n =? 1) || (m =? n) then Ok (n :: axes) else Err TypeError.
Proof.
  unfold expand_shape. cbn [rev]. rewrite expand_rev_same. cbn [expand_rev].
  destruct ((n =? 1) || (m =? n)); cbn [bind existsb]; [|reflexivity]. rewrite rev_app_distr, rev_involutive. reflexivity.
Qed.

(** Whether the rows of a range can be read. *)
Definition fit (src dst : list Z) (n : Z) : Prop := exists block, expand_shape (n :: dst) (n :: src) = Ok block.

Lemma fit_dec src dst n : {fit src dst n} + {expand_shape (n :: dst) (n :: src) = Err TypeError}.
Proof.
  destruct (expand_shape (n :: dst) (n :: src)) as [b|e] eqn:E.
  - left. exists b. exact E.
  - right. apply expand_shape_error in E as H. now subst.
Qed.

Lemma fit_same axes n : fit axes axes n.
Proof. exists (n :: axes). now rewrite expand_shape_same, Z.eqb_refl, orb_true_r. Qed.

Lemma fit_scalar src n : 1 <= n -> Forall (fun d => 1 <= d) src -> src <> [] -> fit src [] n <-> n = 1 /\ ones src.
Proof.
  intros N W S. unfold fit, expand_shape. cbn [rev app expand_rev].
  apply positive_rev in W. rewrite <- (ones_rev src). assert (S' : rev src <> []).
  { intros E. apply S. rewrite <- (rev_involutive src), E. reflexivity. }
  destruct (rev src) as [|t l]; [congruence|]. cbn [app]. inversion W as [|? ? Wt Wl]; subst.
  assert (Wn : Forall (fun d => 1 <= d) (l ++ [n])) by (apply Forall_app; split; [assumption|constructor; [lia|constructor]]).
  assert (Eo : ones (l ++ [n]) <-> ones l /\ n = 1).
  { unfold ones. rewrite Forall_app. split; intros (A & B); split; auto; inversion B; auto. }
  destruct (existsb (fun t0 => 1 <? t0) (l ++ [n])) eqn:X.
  - assert (NO : ~ ones (l ++ [n])) by (intros O; apply none_long in O; congruence).
    split; [|intros (-> & O); inversion O; subst; exfalso; apply NO, Eo; auto].
    intros (b & E). destruct ((t =? 1) || (n =? t)); discriminate.
  - apply none_long in X; [|assumption]. apply Eo in X as (X & ->). split.
    + intros (b & E). split; [reflexivity|]. destruct ((t =? 1) || (1 =? t)) eqn:T; [|discriminate].
      apply orb_true_iff in T. rewrite !Z.eqb_eq in T. constructor; [lia|assumption].
    + intros (_ & O). inversion O; subst. cbn. eexists. reflexivity.
Qed.

Lemma fit_more p src last n : 1 <= n -> Forall (fun d => 1 <= d) src -> src <> [] ->
  fit (src ++ [last]) [p] n <-> n = 1 /\ ones src /\ (last = 1 \/ last = p).
Proof.
  intros N W S. pose proof (fit_scalar src n N W S) as F. unfold fit, expand_shape in *. cbn [rev app] in *.
  rewrite rev_app_distr. cbn [rev app].
  change (expand_rev [p; n] (last :: rev src ++ [n]))
    with (if (last =? 1) || (p =? last) then do rest <- expand_rev [n] (rev src ++ [n]); Ok (last :: rest) else Err TypeError).
  destruct ((last =? 1) || (p =? last)) eqn:T.
  - apply orb_true_iff in T. rewrite !Z.eqb_eq in T.
    destruct (expand_rev [n] (rev src ++ [n])) as [b|e] eqn:E; cbn [bind] in *.
    + assert (n = 1 /\ ones src) as (-> & O) by (apply F; eauto). split; [intros _; split; [reflexivity|]; split; [assumption|]; lia|eauto].
    + split; [intros (b & B); discriminate|]. intros (-> & O & _). destruct (proj2 F (conj eq_refl O)) as (b & B). discriminate.
  - apply orb_false_iff in T. rewrite !Z.eqb_neq in T. split; [intros (b & B); discriminate|]. intros (_ & _ & L). lia.
Qed.

(** * Rows from elements *)

Lemma concat_row {V} (rows : list (list V)) P : forall i row j, Forall (fun r => length r = P) rows ->
  nth_error rows i = Some row -> (j < P)%nat -> nth_error (concat rows) (i * P + j) = nth_error row j.
Proof.
  induction rows as [|r rows IH]; intros [|i] row j W H J; cbn in H; try discriminate; inversion W; subst; cbn [concat].
  - injection H as ->. cbn. now rewrite nth_error_app1.
  - rewrite nth_error_app2 by lia. replace (S i * length r + j - length r)%nat with (i * length r + j)%nat by lia. now apply IH.
Qed.

Lemma map_nth_row {V} (row : list V) : map (fun j => nth_error row (Z.to_nat j)) (zrange 0 (zlen row)) = map Some row.
Proof.
  apply nth_error_ext'; [rewrite !map_length, zrange_length; unfold zlen; lia|]. intros k. rewrite !nth_error_map. unfold zlen.
  destruct (Nat.lt_ge_cases k (length row)) as [L|L].
  - rewrite nth_error_zrange by lia.
    cbn [option_map]. replace (Z.to_nat (0 + Z.of_nat k)) with k by lia.
    destruct (nth_error row k) eqn:E; [reflexivity|]. apply nth_error_None in E. lia.
  - rewrite (proj2 (nth_error_None (zrange 0 (Z.of_nat (length row))) k)) by (rewrite zrange_length; lia).
    rewrite (proj2 (nth_error_None row k)) by lia. reflexivity.
Qed.

(** [m] rows that are the [n] given ones, or the only one [m] times. *)
Lemma value_rows {V} (rows : list (list V)) P m : 1 <= P -> 1 <= zlen rows -> 0 <= m -> Forall (fun r => zlen r = P) rows ->
  zlen rows = m \/ zlen rows = 1 ->
  map (fun i => map (fun j => nth_error (concat rows) (Z.to_nat (i mod zlen rows * P + j mod P))) (zrange 0 P)) (zrange 0 m)
  = map (map Some) (if zlen rows =? m then rows else concat (repeat rows (Z.to_nat m))).
Proof.
  intros HP HN HM W C.
  assert (R : forall i, 0 <= i -> map (fun j => nth_error (concat rows) (Z.to_nat (i mod zlen rows * P + j mod P))) (zrange 0 P)
              = map Some (nth (Z.to_nat (i mod zlen rows)) rows [])).
  { intros i I. pose proof (Z.mod_pos_bound i (zlen rows) ltac:(lia)) as B. set (q := i mod zlen rows) in *.
    destruct (nth_error rows (Z.to_nat q)) as [row|] eqn:E; [|apply nth_error_None in E; unfold zlen in *; lia].
    rewrite (nth_error_nth _ _ [] E). rewrite <- map_nth_row.
    assert (L : zlen row = P) by (apply nth_error_In in E; rewrite Forall_forall in W; auto). rewrite L.
    apply map_ext_in. intros j J. apply In_zrange in J. rewrite Z.mod_small by lia.
    rewrite <- (concat_row rows (Z.to_nat P) (Z.to_nat q) row (Z.to_nat j)); [f_equal; nia| |assumption|lia].
    eapply Forall_impl; [|exact W]. cbn. unfold zlen. intros; lia. }
  rewrite (map_ext_in _ (fun i => map Some (nth (Z.to_nat (i mod zlen rows)) rows []))) by (intros i I; apply In_zrange in I; apply R; lia).
  clear R. destruct (zlen rows =? m) eqn:E.
  - apply Z.eqb_eq in E. rewrite E. apply nth_error_ext'; [rewrite !map_length, zrange_length; unfold zlen in *; lia|]. intros k. rewrite !nth_error_map.
    destruct (Nat.lt_ge_cases k (length rows)) as [L|L].
    + rewrite nth_error_zrange by (unfold zlen in *; lia).
      cbn [option_map]. rewrite Z.mod_small by (unfold zlen in *; lia). replace (Z.to_nat (0 + Z.of_nat k)) with k by lia.
      rewrite (nth_error_nth' rows [] L). reflexivity.
    + rewrite (proj2 (nth_error_None (zrange 0 m) k)) by (rewrite zrange_length; unfold zlen in *; lia).
      rewrite (proj2 (nth_error_None rows k)) by lia. reflexivity.
  - apply Z.eqb_neq in E. destruct C as [C|C]; [congruence|]. rewrite C.
    destruct rows as [|r [|r' rows]]; unfold zlen in C; cbn [length] in C; try lia. clear -HM.
    rewrite (map_ext_in _ (fun _ => map Some r)) by (intros i _; rewrite Z.mod_1_r; reflexivity).
    replace (Z.to_nat m) with (length (zrange 0 m)) by (rewrite zrange_length; lia). induction (zrange 0 m) as [|x l IH]; [reflexivity|].
    cbn [map length repeat concat app]. f_equal. exact IH.
Qed.

(** * Comparison with reads of rows *)

Definition mapres {A B} (f : A -> B) (r : res A) : res B := match r with Ok a => Ok (f a) | Err e => Err e end.

(** A row of the buffer as elements. *)
Definition conv {V} (P : Z) (o : option (list V)) : list (option V) :=
  match o with Some row => map Some row | None => repeat None (Z.to_nat P) end.

Lemma splice_nil {A} p (b : list A) : splice p [] b = b.
Proof. unfold splice. rewrite app_nil_l. cbn [length]. rewrite Nat.add_0_r. apply firstn_skipn. Qed.

Lemma map_repeat {A B} (f : A -> B) x n : map f (repeat x n) = repeat (f x) n.
Proof. induction n; [reflexivity|]. cbn. now f_equal. Qed.

Lemma splice_map {A B} (f : A -> B) p v b : map f (splice p v b) = splice p (map f v) (map f b).
Proof. unfold splice. rewrite !map_app, firstn_map, skipn_map, map_length. reflexivity. Qed.

Lemma py_slice_bounds n r s c : 0 <= n -> py_slice n r = (s, c) -> 0 <= s /\ 0 <= c /\ (c <> 0 -> s + c <= n).
Proof.
  intros N. unfold py_slice. intros H. injection H as <- <-.
  destruct (fst r <? 0) eqn:A, (snd r <? 0) eqn:B; rewrite ?Z.ltb_lt, ?Z.ltb_ge in *; lia.
Qed.

Lemma slice_length {A} (l : list A) s c : 0 <= s -> 0 <= c -> (c <> 0 -> s + c <= zlen l) ->
  zlen (firstn (Z.to_nat c) (skipn (Z.to_nat s) l)) = c.
Proof. intros. unfold zlen in *. rewrite firstn_length, skipn_length. lia. Qed.

Lemma slab_length {V} tail column (row : list V) : Forall (fun d => 1 <= d) tail -> no_column tail column = false ->
  zlen row = prodZ tail -> zlen (slab tail column row) = prodZ (slab_axes tail column).
Proof.
  intros W C L. destruct column as [j|], tail as [|d rest]; try exact L. cbn [slab slab_axes no_column] in *.
  apply Z.leb_gt in C. inversion W; subst. pose proof (prodZ_pos _ H2) as P. rewrite prodZ_cons in L.
  unfold zlen in *. rewrite firstn_length, skipn_length. nia.
Qed.

Lemma slab_axes_positive tail column : Forall (fun d => 1 <= d) tail -> Forall (fun d => 1 <= d) (slab_axes tail column).
Proof. intros W. destruct column, tail; cbn; try assumption. now inversion W. Qed.

Lemma existsb_zero l : Forall (fun d => 1 <= d) l -> existsb (fun t => t =? 0) l = false.
Proof. induction 1 as [|d l H _ IH]; [reflexivity|]. cbn [existsb]. rewrite IH, orb_false_r. apply Z.eqb_neq. lia. Qed.

Lemma slices_rows {V} tail column (data : list (list V)) s c : Forall (fun d => 1 <= d) tail -> no_column tail column = false ->
  Forall (fun row => zlen row = prodZ tail) data ->
  Forall (fun r => zlen r = prodZ (slab_axes tail column)) (map (slab tail column) (firstn c (skipn s data))).
Proof.
  intros W C L. apply Forall_forall. intros r I. apply in_map_iff in I as (row & <- & I). apply slab_length; [assumption|assumption|].
  rewrite Forall_forall in L. apply L. rewrite <- (firstn_skipn s data). apply in_app_iff. right.
  rewrite <- (firstn_skipn c (skipn s data)). apply in_app_iff. now left.
Qed.

Section Set_.
  Context {V : Type} (tail : list Z) (column : option nat) (data : list (list V)) (dst : list Z).
  Hypothesis Wt : Forall (fun d => 1 <= d) tail.
  Hypothesis Wc : no_column tail column = false.
  Hypothesis Wd : Forall (fun row => zlen row = prodZ tail) data.
  Hypothesis Wl : (length dst <= 1)%nat.
  Hypothesis Wp : Forall (fun d => 1 <= d) dst.
  Let src := slab_axes tail column.
  Let P := prodZ dst.

  Lemma direct_value s n m : prodZ src = P -> 0 <= s -> 1 <= n -> s + n <= zlen data -> 0 <= m -> n = m \/ n = 1 ->
    let elements := concat (map (slab tail column) (firstn (Z.to_nat n) (skipn (Z.to_nat s) data))) in
    let block := n :: dst in
    map (fun i => map (fun j => nth_error elements (Z.to_nat ((i mod nth 0 block 1) * nth 1 block 1 + j mod nth 1 block 1))) (zrange 0 P)) (zrange 0 m)
    = map (conv P) (let rows := map (fun x => Some (slab tail column x)) (firstn (Z.to_nat n) (skipn (Z.to_nat s) data)) in
                    if n =? m then rows else concat (repeat rows (Z.to_nat m))).
  Proof.
    intros E S N L M C elements block. unfold elements, block. clear elements block. cbn [nth].
    assert (Q : nth 0 dst 1 = P) by (unfold P; destruct dst as [|p [|q l]]; cbn in *; lia). rewrite Q.
    set (rows := map (slab tail column) (firstn (Z.to_nat n) (skipn (Z.to_nat s) data))).
    assert (R : zlen rows = n) by (unfold rows; rewrite zlen_map; apply slice_length; lia).
    pose proof (value_rows rows P m) as X. rewrite R in X. rewrite X; [|unfold P; apply prodZ_pos; exact Wp|exact N|exact M| |exact C].
    - rewrite <- (map_map (slab tail column) Some). fold rows. cbv zeta. destruct (n =? m).
      + rewrite map_map. reflexivity.
      + rewrite !concat_map, !map_repeat, !map_map. reflexivity.
    - rewrite <- E. unfold rows, src. apply slices_rows; assumption.
  Qed.

  (** As many axes in the buffer. *)
  Lemma direct_same r out r' : src = dst ->
    read_direct_nd tail column data r dst (map (conv P) out) r' = mapres (map (conv P)) (read_direct (slab tail column) data r out r').
  Proof.
    intros E. unfold read_direct_nd, read_direct. rewrite Wc, zlen_map. fold src. rewrite E.
    destruct (py_slice (zlen data) r) as [s n] eqn:Es. destruct (py_slice (zlen out) r') as [d m] eqn:Ed.
    apply py_slice_bounds in Es as (S & N & L); [|apply zlen_nonneg]. apply py_slice_bounds in Ed as (D & M & _); [|apply zlen_nonneg].
    rewrite expand_shape_same. rewrite (Z.eqb_sym m n).
    destruct (n =? m) eqn:NM.
    - rewrite orb_true_r. cbn [bind existsb]. rewrite (existsb_zero dst Wp), orb_false_r.
      destruct (n =? 0) eqn:N0; [reflexivity|]. apply Z.eqb_eq in NM. subst m. apply Z.eqb_neq in N0.
      replace (n =? 0) with false by (symmetry; apply Z.eqb_neq; lia). cbn [orb].
      rewrite Z.eqb_refl. cbn [negb]. fold P. rewrite direct_value; try lia; [|now rewrite E]. rewrite Z.eqb_refl. cbn [mapres].
      rewrite splice_map. reflexivity.
    - destruct (n =? 1) eqn:N1; cbn [orb bind mapres]; [|reflexivity]. apply Z.eqb_eq in N1. subst n.
      cbn [existsb]. rewrite (existsb_zero dst Wp), orb_false_r. change (1 =? 0) with false. cbn [orb].
      destruct (m =? 0) eqn:M0.
      + apply Z.eqb_eq in M0. subst m. cbn [Z.to_nat repeat concat]. rewrite splice_nil. reflexivity.
      + rewrite Z.eqb_refl. cbn [negb]. fold P. rewrite direct_value; try lia; [|now rewrite E]. rewrite NM, splice_map. reflexivity.
  Qed.

  (** A range inside of the dataset for which there is room in the buffer. *)
  Lemma direct_fit s e out i : prodZ src = P -> fit src dst (e - s) -> in_bounds (zlen data) (s, e) -> s < e -> 0 <= i -> i + (e - s) <= zlen out ->
    read_direct_nd tail column data (s, e) dst (map (conv P) out) (i, e - s + i)
    = mapres (map (conv P)) (read_direct (slab tail column) data (s, e) out (i, e - s + i)).
  Proof.
    intros E (block & F) (B1 & B2 & B3) L I R. cbn [fst snd] in *. unfold read_direct_nd, read_direct. rewrite Wc, zlen_map. fold src.
    rewrite !py_slice_in by lia. replace (e - s + i - i) with (e - s) by lia. rewrite F. cbn [bind].
    assert (Ws := slab_axes_positive tail column Wt). fold src in Ws.
    assert (Wm : Forall (fun d => 1 <= d) ((e - s) :: dst)) by (constructor; [lia|assumption]).
    assert (Wn : Forall (fun d => 1 <= d) ((e - s) :: src)) by (constructor; [lia|assumption]).
    assert (block = (e - s) :: dst) as ->.
    { apply (expand_shape_full _ _ _ Wm Wn F). rewrite !prodZ_cons, E. reflexivity. }
    rewrite (existsb_zero _ Wm), !prodZ_cons, E. fold P. rewrite Z.eqb_refl. cbn [negb].
    replace (e - s =? 0) with false by (symmetry; apply Z.eqb_neq; lia).
    rewrite direct_value by (auto; lia). rewrite Z.eqb_refl. cbn [mapres]. rewrite splice_map. reflexivity.
  Qed.

  Lemma direct_unfit s e (out : list (list (option V))) i : expand_shape (e - s :: dst) (e - s :: src) = Err TypeError ->
    in_bounds (zlen data) (s, e) -> 0 <= i -> i + (e - s) <= zlen out ->
    read_direct_nd tail column data (s, e) dst out (i, e - s + i) = Err TypeError.
  Proof.
    intros F (B1 & B2 & B3) I R. cbn [fst snd] in *. unfold read_direct_nd. rewrite Wc. fold src.
    rewrite !py_slice_in by lia. replace (e - s + i - i) with (e - s) by lia. rewrite F. reflexivity.
  Qed.

  (** * The loop *)

  Lemma loop_same rs : src = dst -> forall i out,
    read_loop_nd tail column data rs dst i (map (conv P) out) = mapres (map (conv P)) (read_loop (slab tail column) data rs i out).
  Proof.
    intros E. induction rs as [|[s e] rs IH]; intros i out; [reflexivity|]. cbn [read_loop_nd read_loop].
    destruct (e =? s); [apply IH|]. rewrite direct_same by exact E.
    destruct (read_direct _ _ _ _ _); cbn [mapres]; [apply IH|reflexivity].
  Qed.

  Lemma read_direct_ok_length s e (out : list (option (list V))) i : in_bounds (zlen data) (s, e) -> s < e -> 0 <= i -> i + (e - s) <= zlen out ->
    exists out', read_direct (slab tail column) data (s, e) out (i, e - s + i) = Ok out' /\ zlen out' = zlen out.
  Proof.
    intros B L I R. rewrite read_direct_ok by assumption. eexists. split; [reflexivity|]. unfold zlen in *. f_equal. apply splice_length.
    rewrite map_length. pose proof (slice_rows_length (slab tail column) data _ B) as Q. unfold zlen in Q. cbn [fst snd] in Q. lia.
  Qed.

  Lemma loop_fit rs : (forall r, In r rs -> fst r < snd r -> fit src dst (snd r - fst r)) -> prodZ src = P -> Forall (in_bounds (zlen data)) rs ->
    forall i out, 0 <= i -> i + total_rows rs <= zlen out ->
    read_loop_nd tail column data rs dst i (map (conv P) out) = mapres (map (conv P)) (read_loop (slab tail column) data rs i out).
  Proof.
    intros F E B. induction B as [|[s e] rs B Bs IH]; intros i out I R; [reflexivity|]. cbn [read_loop_nd read_loop].
    pose proof (total_rows_nonneg _ (in_bounds_wf _ _ Bs)) as T. rewrite total_rows_cons in R. cbn [fst snd] in R.
    assert (B' := B). destruct B' as (B1 & B2 & B3). cbn [fst snd] in B1, B2, B3.
    assert (IH' := IH (fun r H => F r (or_intror H))). clear IH.
    destruct (e =? s) eqn:Q; [apply IH'; [assumption|apply Z.eqb_eq in Q; lia]|]. apply Z.eqb_neq in Q.
    rewrite direct_fit; try assumption; try lia; [|apply (F (s, e)); [now left|cbn; lia]].
    destruct (read_direct_ok_length s e out i B ltac:(lia) I ltac:(lia)) as (out' & O & Lo). rewrite O. cbn [mapres]. apply IH'; lia.
  Qed.

  Lemma loop_unfit rs r : prodZ src = P -> Forall (in_bounds (zlen data)) rs ->
    In r rs -> fst r < snd r -> ~ fit src dst (snd r - fst r) ->
    forall i out, 0 <= i -> i + total_rows rs <= zlen out ->
    read_loop_nd tail column data rs dst i (map (conv P) out) = Err TypeError.
  Proof.
    intros E B. induction B as [|[s e] rs B Bs IH]; intros H L F i out I R; [destruct H|]. cbn [read_loop_nd].
    pose proof (total_rows_nonneg _ (in_bounds_wf _ _ Bs)) as T. rewrite total_rows_cons in R. cbn [fst snd] in R.
    assert (B' := B). destruct B' as (B1 & B2 & B3). cbn [fst snd] in B1, B2, B3.
    destruct (e =? s) eqn:Q.
    { apply Z.eqb_eq in Q. destruct H as [<-|H]; [cbn in L; lia|]. apply IH; auto; lia. }
    apply Z.eqb_neq in Q. destruct (fit_dec src dst (e - s)) as [G|G].
    - destruct H as [<-|H]; [contradiction|]. rewrite direct_fit; try assumption; try lia.
      destruct (read_direct_ok_length s e out i B ltac:(lia) I ltac:(lia)) as (out' & O & Lo). rewrite O. cbn [mapres]. apply IH; auto; lia.
    - rewrite direct_unfit; try assumption; [reflexivity|rewrite zlen_map; lia].
  Qed.

  (** When no range at all fits, the contents do not matter. *)
  Lemma loop_none rs r : (forall n, 1 <= n -> ~ fit src dst n) -> Forall (in_bounds (zlen data)) rs ->
    In r rs -> fst r < snd r -> forall i (out : list (list (option V))), 0 <= i -> i + total_rows rs <= zlen out ->
    read_loop_nd tail column data rs dst i out = Err TypeError.
  Proof.
    intros F B. induction B as [|[s e] rs B Bs IH]; intros H L i out I R; [destruct H|]. cbn [read_loop_nd].
    pose proof (total_rows_nonneg _ (in_bounds_wf _ _ Bs)) as T. rewrite total_rows_cons in R. cbn [fst snd] in R.
    assert (B' := B). destruct B' as (B1 & B2 & B3). cbn [fst snd] in B1, B2, B3.
    destruct (e =? s) eqn:Q.
    { apply Z.eqb_eq in Q. destruct H as [<-|H]; [cbn in L; lia|]. apply IH; auto; lia. }
    apply Z.eqb_neq in Q. destruct (fit_dec src dst (e - s)) as [G|G]; [exfalso; apply (F (e - s)); [lia|exact G]|].
    rewrite direct_unfit; try assumption; [reflexivity|lia].
  Qed.

  Lemma empty_nd n : @np_empty_nd V n dst = mapres (map (conv P)) (np_empty n).
  Proof. unfold np_empty_nd, np_empty. destruct (n <? 0); [reflexivity|]. cbn [mapres]. rewrite map_repeat. reflexivity. Qed.
End Set_.

(** * Extraction *)

Lemma take_one_map {A B} (f : A -> B) l i : take_one (map f l) i = mapres f (take_one l i).
Proof.
  unfold take_one. rewrite zlen_map. set (j := if i <? 0 then i + zlen l else i). cbv zeta.
  destruct (j <? 0); [reflexivity|]. rewrite nth_error_map. destruct (nth_error l (Z.to_nat j)); reflexivity.
Qed.

Lemma all_ok_mapres {A B C} (f : B -> C) (g : A -> res B) l : all_ok (map (fun x => mapres f (g x)) l) = mapres (map f) (all_ok (map g l)).
Proof.
  induction l as [|x l IH]; [reflexivity|]. cbn [map all_ok]. rewrite IH. destruct (g x); cbn [mapres]; [|reflexivity].
  destruct (all_ok (map g l)); reflexivity.
Qed.

Lemma extract_map {A B} (f : A -> B) l chunks ranges : extract_ranges (map f l) chunks ranges = mapres (map f) (extract_ranges l chunks ranges).
Proof.
  unfold extract_ranges. destruct (adjust_ranges _ _ _ _) as [adj|]; [|reflexivity]. cbn [bind].
  destruct (expand_ranges adj) as [idx|]; [|reflexivity]. cbn [bind]. rewrite <- all_ok_mapres. f_equal. apply map_ext.
  intros i. apply take_one_map.
Qed.

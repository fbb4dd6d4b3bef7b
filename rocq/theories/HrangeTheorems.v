(** C128: histograms with a range. *)
From Coq Require Import String List ZArith Bool Reals Lra Lia.
From Verif Require Import Base CosmoModel CosmoSpec CosmoProofs FuncModel FuncSpec FuncProofs FuncMoreProofs FuncHistProofs FuncTheorems HrangeModel HrangeSpec.
Import ListNotations.
Open Scope R_scope.

(** Equal bins, and the bins of C69 if only a number of bins is given. *)
Lemma even_bins : forall lo hi n, (0 < n)%nat -> equal_bins lo hi n (even lo hi n).
Proof.
  intros lo hi n Hn. assert (N : INR n <> 0) by (apply not_0_INR; lia).
  assert (E : forall i, (i <= n)%nat -> nth i (even lo hi n) 0 = lo + (hi - lo) * INR i / INR n).
  { intros i Hi. unfold even. rewrite nth_indep with (d' := (fun i => lo + (hi - lo) * INR i / INR n) 0%nat) by (rewrite map_length, seq_length; lia).
    rewrite (map_nth (fun i => lo + (hi - lo) * INR i / INR n)), seq_nth by lia. reflexivity. }
  split; [unfold even; rewrite map_length, seq_length; reflexivity|]. split; [rewrite E by lia; cbn [INR]; unfold Rdiv; ring|].
  split; [rewrite E by lia; field; exact N|]. intros i Hi. rewrite !E by lia. rewrite S_INR. field. exact N.
Qed.
Lemma fold_min_in : forall t x, In (fold_left Rmin t x) (x :: t).
Proof.
  induction t as [|y t IH]; intro x; [left; reflexivity|]. cbn [fold_left]. destruct (IH (Rmin x y)) as [E|E].
  - rewrite <- E. unfold Rmin. destruct (Rle_dec x y); [left|right; left]; reflexivity.
  - right. right. exact E.
Qed.
Lemma fold_max_in : forall t x, In (fold_left Rmax t x) (x :: t).
Proof.
  induction t as [|y t IH]; intro x; [left; reflexivity|]. cbn [fold_left]. destruct (IH (Rmax x y)) as [E|E].
  - rewrite <- E. unfold Rmax. destruct (Rle_dec x y); [right; left|left]; reflexivity.
  - right. right. exact E.
Qed.
Theorem C69_edges_meaning : forall v n, spread v -> (0 < n)%nat ->
  exists lo hi, least lo v /\ greatest hi v /\ equal_bins lo hi n (edges v (NNum n)).
Proof.
  intros v n H Hn. destruct (spread_minmax v H) as (E & N). exists (minl v), (maxl v). unfold edges. rewrite E.
  split; [split; [destruct v; [congruence|apply fold_min_in]|apply minl_le]|]. split; [split; [destruct v; [congruence|apply fold_max_in]|apply maxl_ge]|]. apply even_bins, Hn.
Qed.

(** Without a range this is the function of C69. *)
Theorem C128_without : forall a b density w, np_histogram_in a b RNone density w = np_histogram a b density w.
Proof.
  intros a b density w. unfold np_histogram_in, np_histogram. cbn [range_op range_numbers].
  destruct (prepare_kw _ _ _) as [p|]; [|reflexivity]. cbn [bind]. destruct (keep (acf a)); [|reflexivity]. cbn [bind].
  destruct (h_reciprocal (acf a)); [|reflexivity]. cbn [bind].
  destruct (k_args p) as [|a' ?]; [reflexivity|]. destruct (k_kw p) as [|b' [|? [|? [|? ?]]]]; try reflexivity.
  destruct b; reflexivity.
Qed.

(** The array with other numbers. *)
Definition renumbered (y : carr) (v : list R) : carr := mkarr v (acf y) (acm y) (avt y) (acomp y).

Lemma renumbered_good : forall s k y v, good s k y -> good s k (renumbered y v).
Proof. intros s k y v [A B C]. constructor; assumption. Qed.

(** Numbers in a frame are the given ones times a positive factor. *)
Lemma framed : forall s k y fr, good s k y -> exists c, 0 < c /\ forall v, in_frame fr (OArr (renumbered y v)) = scale c v.
Proof.
  intros s k y fr [A B C]. unfold in_frame, op_comov, op_phys, comov, phys, renumbered. cbn [acm acf avals]. rewrite A.
  assert (O : forall v : list R, v = scale 1 v) by (intro v; symmetry; apply scale_1).
  destruct fr as [[]|], (acm y) as [[]|]; try (exists 1; split; [lra|exact O]).
  - exists (/ Rpower s k). split; [apply Rinv_0_lt_compat, Rpower_pos|]. intro v. unfold scale. apply map_ext. intro u. unfold Rdiv. ring.
  - exists (Rpower s k). split; [apply Rpower_pos|]. reflexivity.
  - exists (Rpower s k). split; [apply Rpower_pos|]. reflexivity.
Qed.

Lemma renumbered_id : forall y, renumbered y (avals y) = y.
Proof. intros []. reflexivity. Qed.

Lemma edges_in_scaled : forall v n c lo hi, 0 < c -> lo < hi ->
  edges_in v (NNum n) (Some (scale c [lo; hi])) = Ok (scale c (even lo hi n)).
Proof.
  intros v n c lo hi Hc H. cbn [scale map edges_in]. assert (c * lo < c * hi) by (apply Rmult_lt_compat_l; assumption).
  replace (Rltb (c * hi) (c * lo)) with false by (symmetry; unfold Rltb; destruct (Rlt_dec (c * hi) (c * lo)); [lra|reflexivity]).
  replace (Reqb (c * lo) (c * hi)) with false by (symmetry; unfold Reqb; destruct (Req_EM_T (c * lo) (c * hi)); [lra|reflexivity]).
  rewrite even_scale. reflexivity.
Qed.

(** A range that is one array: the histogram is that with the edges of equal bins between its two values, in the label and
    frame of the range.  So it is right whenever C69 says so. *)
Theorem C128_array : forall s k j kw x y lo hi n density w,
  good s k x -> good s j y -> avals y = [lo; hi] -> lo < hi -> good_weights s w kw ->
  np_histogram_in x (BNum n) (RArr y) density w
  = np_histogram x (BEdges (OArr (renumbered y (even lo hi n)))) density w.
Proof.
  intros s k j kw x y lo hi n density w Gx Gy Ey H W.
  set (y' := renumbered y (even lo hi n)). pose proof (renumbered_good s j y (even lo hi n) Gy) as Gy'. fold y' in Gy'.
  unfold np_histogram_in, np_histogram. cbn [bins_op range_op].
  assert (Cw : Forall conv (arrs [weights_op w])).
  { destruct W as [|o kw S]; [constructor|]. cbn [weights_op]. eapply sized_conv. constructor; [exact S|constructor]. }
  assert (C1 : Forall conv (arrs ([OArr x] ++ [OPlain []; OArr y; OPlain []; weights_op w]))).
  { cbn [app arrs flat_map] in *. constructor; [exists s, k; exact Gx|]. constructor; [exists s, j; exact Gy|]. exact Cw. }
  assert (C2 : Forall conv (arrs ([OArr x] ++ [OArr y'; OPlain []; OPlain []; weights_op w]))).
  { cbn [app arrs flat_map] in *. constructor; [exists s, k; exact Gx|]. constructor; [exists s, j; exact Gy'|]. exact Cw. }
  destruct (prepare_conv _ _ C1) as (a1 & k1 & -> & A1 & K1 & _). destruct (prepare_conv _ _ C2) as (a2 & k2 & -> & A2 & K2 & _).
  assert (Fr : frame ([OArr x] ++ [OPlain []; OArr y; OPlain []; weights_op w]) = frame ([OArr x] ++ [OArr y'; OPlain []; OPlain []; weights_op w])).
  { unfold frame. cbn [app arrs flat_map existsb]. reflexivity. }
  assert (Co : comp_of ([OArr x] ++ [OPlain []; OArr y; OPlain []; weights_op w]) = comp_of ([OArr x] ++ [OArr y'; OPlain []; OPlain []; weights_op w])).
  { unfold comp_of. cbn [app map forallb op_comp]. change (acomp y') with (acomp y).
    cbn [comp_eqb Bool.eqb andb]. destruct (comp_eqb (acomp x) (acomp y)); reflexivity. }
  rewrite Fr, Co in *. cbn [bind]. set (fr := frame _) in *. clearbody fr. set (cp := comp_of _). clearbody cp.
  destruct (keep (acf x)); [|reflexivity]. cbn [bind]. destruct (h_reciprocal (acf x)); [|reflexivity]. cbn [bind k_args k_kw].
  destruct a1 as [|x1 [|? ?]]; try discriminate. destruct a2 as [|x2 [|? ?]]; try discriminate.
  destruct k1 as [|b1 [|r1 [|d1 [|w1 [|? ?]]]]]; try discriminate. destruct k2 as [|b2 [|r2 [|d2 [|w2 [|? ?]]]]]; try discriminate.
  unfold numbers in *. cbn [map] in *. injection A1 as E1. injection A2 as E2. injection K1 as _ Er _ Ew1. injection K2 as Eb _ _ Ew2.
  destruct (framed s j y fr Gy) as (c & Hc & Ec). pose proof (Ec [lo; hi]) as Y1. rewrite <- Ey, renumbered_id in Y1. rewrite Y1 in Er.
  unfold y' in Eb. rewrite Ec in Eb. cbn [nbins_of range_numbers]. rewrite E1, E2, Er, Eb, Ey, edges_in_scaled by assumption. cbn [bind edges].
  assert (Wv : weights_of (length (avals x)) w w1 = weights_of (length (avals x)) w w2).
  { unfold weights_of. destruct w; [|reflexivity]. rewrite Ew1, Ew2. reflexivity. }
  rewrite Wv. reflexivity.
Qed.

(** The counts are those of the physical values in equal bins between the physical ends of the range. *)
Theorem C128_counts : forall s k kw x y a b n w, 0 < s -> good s k x -> good s k y -> phys y = [a; b] -> a < b -> (0 < n)%nat ->
  good_weights s w kw ->
  exists counts e t, np_histogram_in x (BNum n) (RArr y) false w = Ok (counts, e)
    /\ good s k e /\ phys e = t /\ equal_bins a b n t /\ op_stands s kw counts (histv [phys x] [t] (phys_weights x w) false).
Proof.
  intros s k kw x y a b n w Hs Gx Gy Ey H Hn W.
  destruct (framed s k y (Some false) Gy) as (c & Hc & Ec). cbn [in_frame op_phys] in Ec.
  assert (P : phys y = scale c (avals y)) by (rewrite <- Ec, renumbered_id; reflexivity).
  assert (exists lo hi, avals y = [lo; hi] /\ a = c * lo /\ b = c * hi) as (lo & hi & Ev & -> & ->).
  { rewrite P in Ey. destruct (avals y) as [|lo [|hi [|? ?]]]; try discriminate. injection Ey as <- <-. exists lo, hi. auto. }
  assert (Hl : lo < hi) by (apply Rmult_lt_reg_l with c; assumption).
  pose proof (renumbered_good s k y (even lo hi n) Gy) as Gy'.
  destruct (C69_counts s k kw x (BEdges (OArr (renumbered y (even lo hi n)))) w Hs Gx (gb_edges s k x _ Gy') W) as (counts & e & E & Ge & Pe & C).
  exists counts, e, (phys_edges x (BEdges (OArr (renumbered y (even lo hi n))))).
  split; [rewrite (C128_array s k k kw x y lo hi n false w Gx Gy Ev Hl W); exact E|]. split; [exact Ge|]. split; [exact Pe|]. split; [|exact C].
  unfold phys_edges. cbn [phys_bins edges op_phys]. rewrite Ec, <- even_scale. apply even_bins, Hn.
Qed.

(** A range of two quantities is not prepared with the rest, so that its numbers are taken in whatever frame the data end up
    in.  It is right where data, range and weights are in one frame. *)
Definition framed_as (x : carr) (w : option operand) : Prop := match w with Some (OArr z) => acm z = acm x | _ => True end.
Theorem C128_pair : forall s k j i kw x lo hi l h n density w,
  good s k x -> good s j lo -> good s i hi -> avals lo = [l] -> avals hi = [h] -> good_weights s w kw ->
  acm lo = acm x -> framed_as x w ->
  np_histogram_in x (BNum n) (RPair lo hi) density w = np_histogram_in x (BNum n) (RArr (renumbered lo [l; h])) density w.
Proof.
  intros s k j i kw x lo hi l h n density w Gx Gl Gh El Eh W M Fw.
  set (y := renumbered lo [l; h]). pose proof (renumbered_good s j lo [l; h] Gl) as Gy. fold y in Gy.
  unfold np_histogram_in. cbn [bins_op range_op].
  assert (Cw : Forall conv (arrs [weights_op w])).
  { destruct W as [|o kw S]; [constructor|]. cbn [weights_op]. eapply sized_conv. constructor; [exact S|constructor]. }
  assert (C1 : Forall conv (arrs ([OArr x] ++ [OPlain []; OPlain []; OPlain []; weights_op w]))).
  { cbn [app arrs flat_map] in *. constructor; [exists s, k; exact Gx|]. exact Cw. }
  assert (C2 : Forall conv (arrs ([OArr x] ++ [OPlain []; OArr y; OPlain []; weights_op w]))).
  { cbn [app arrs flat_map] in *. constructor; [exists s, k; exact Gx|]. constructor; [exists s, j; exact Gy|]. exact Cw. }
  destruct (prepare_conv _ _ C1) as (a1 & k1 & -> & A1 & K1 & _). destruct (prepare_conv _ _ C2) as (a2 & k2 & -> & A2 & K2 & _).
  assert (Fr : frame ([OArr x] ++ [OPlain []; OPlain []; OPlain []; weights_op w]) = Some (is_true (acm x))
    /\ frame ([OArr x] ++ [OPlain []; OArr y; OPlain []; weights_op w]) = Some (is_true (acm x))).
  { unfold frame. cbn [app arrs flat_map existsb]. unfold y. cbn [acm renumbered]. rewrite M.
    destruct w as [[z|v]|]; cbn [weights_op app existsb framed_as] in *; rewrite ?Fw; destruct (is_true (acm x)); auto. }
  destruct Fr as (Fr1 & Fr2).
  assert (Co : comp_of ([OArr x] ++ [OPlain []; OPlain []; OPlain []; weights_op w]) = comp_of ([OArr x] ++ [OPlain []; OArr y; OPlain []; weights_op w])).
  { reflexivity. }
  rewrite Fr1, Co in *. rewrite Fr2 in *. cbn [bind]. set (cp := comp_of _). clearbody cp.
  destruct (keep (acf x)); [|reflexivity]. cbn [bind]. destruct (h_reciprocal (acf x)); [|reflexivity]. cbn [bind k_args k_kw].
  destruct a1 as [|x1 [|? ?]]; try discriminate. destruct a2 as [|x2 [|? ?]]; try discriminate.
  destruct k1 as [|b1 [|r1 [|d1 [|w1 [|? ?]]]]]; try discriminate. destruct k2 as [|b2 [|r2 [|d2 [|w2 [|? ?]]]]]; try discriminate.
  unfold numbers in *. cbn [map] in *. injection A1 as E1. injection A2 as E2. injection K1 as _ _ _ Ew1. injection K2 as _ Er _ Ew2.
  assert (Y : op_vals r2 = [l; h]).
  { rewrite Er. destruct Gy as [A B C]. unfold in_frame, op_comov, op_phys, comov, phys. cbn [y renumbered acm acf avals].
    rewrite M. destruct (acm x) as [[]|] eqn:Q; cbn [is_true]; try reflexivity. }
  cbn [nbins_of range_numbers]. rewrite E1, E2, El, Eh, Y. cbn [app].
  assert (Wv : weights_of (length (avals x)) w w1 = weights_of (length (avals x)) w w2).
  { unfold weights_of. destruct w; [|reflexivity]. rewrite Ew1, Ew2. reflexivity. }
  rewrite Wv. reflexivity.
Qed.

(** Otherwise it need not be: comoving data 1 and 3, with the range from 0 to 4 in physical units at a scale factor of 2. *)
Theorem C128_pair_refuted : exists s x lo hi e t, 0 < s /\ good s 1 x /\ good s 1 lo /\ good s 1 hi /\ phys lo = [0] /\ phys hi = [4]
  /\ np_histogram_in x (BNum 1) (RPair lo hi) false None = Ok (OPlain [2], e)
  /\ equal_bins 0 4 1 t /\ histv [phys x] [t] [1; 1] false = [1].
Proof.
  exists 2, (cmv 2 1 [1; 3]), (phy 2 1 [0]), (phy 2 1 [4]). eexists. exists [0; 4].
  split; [lra|]. split; [apply good_cmv|]. split; [apply good_phy|]. split; [apply good_phy|]. split; [reflexivity|]. split; [reflexivity|].
  assert (T : forall a b, a <= b -> Rleb a b = true) by (intros a b Q; apply Rleb_true; exact Q).
  assert (Fl : forall a b, b < a -> Rleb a b = false).
  { intros a b Q. destruct (Rleb a b) eqn:E; [apply Rleb_true in E; lra|reflexivity]. }
  split; [|split].
  - unfold np_histogram_in. cbn [bins_op range_op weights_op].
    change (prepare_kw true [OArr (cmv 2 1 [1; 3])] [OPlain []; OPlain []; OPlain []; OPlain []])
      with (Ok (mkprepk [OArr (cmv 2 1 [1; 3])] [OPlain []; OPlain []; OPlain []; OPlain []]
                  [lab 2 1] [None; None; None; None] (Some true) true CNone false)).
    cbn [bind cmv acf k_args k_kw op_vals avals nbins_of range_numbers phy app]. rewrite keep_ok. cbn [bind].
    change (h_reciprocal (lab 2 1)) with (Ok (lcf 2 (1 * -1))). cbn [bind edges_in].
    replace (Rltb 4 0) with false by (symmetry; destruct (Rltb 4 0) eqn:E; [apply Rltb_true in E; lra|reflexivity]).
    replace (Reqb 0 4) with false by (symmetry; unfold Reqb; destruct (Req_EM_T 0 4); [lra|reflexivity]). cbn [bind].
    replace (even 0 4 1) with [0; 4] by (unfold even; cbn [seq map INR]; repeat f_equal; field).
    f_equal. f_equal. unfold counts_label. cbn [orb]. f_equal. unfold histv. rewrite grid1. cbn [cells map].
    unfold weights_of. cbn [length repeat]. rewrite counted_cons. unfold counted. cbn [length seq map].
    cbn [inside nth length]. unfold in_cell. rewrite !T by lra. cbn [andb]. f_equal. cbn. lra.
  - split; [reflexivity|]. split; [reflexivity|]. split; [reflexivity|]. intros [|i] Hi; [cbn [nth INR]; field|lia].
  - unfold phys, cmv, lab. cbn [acm acf avals map]. rewrite rp21. unfold histv. rewrite grid1. cbn [cells map].
    rewrite counted_cons. unfold counted. cbn [length seq map inside nth]. unfold in_cell. rewrite (T 0 (2 * 1)), (T (2 * 1) 4), (T 0 (2 * 3)), (Fl (2 * 3) 4) by lra.
    cbn [andb]. f_equal. cbn. lra.
Qed.

(** What becomes of the numbers of a range that is one array: those of the data's final frame. *)
Lemma range_edges : forall s k j kw x y n density w, good s k x -> good s j y -> good_weights s w kw ->
  exists c v, 0 < c /\ forall e0, edges_in v (NNum n) (Some (scale c (avals y))) = Err e0 ->
    exists err, np_histogram_in x (BNum n) (RArr y) density w = Err err /\ (keep (acf x) = Ok (acf x) -> (exists i, h_reciprocal (acf x) = Ok i) -> err = e0).
Proof.
  intros s k j kw x y n density w Gx Gy W. unfold np_histogram_in. cbn [bins_op range_op].
  assert (Cw : Forall conv (arrs [weights_op w])).
  { destruct W as [|o kw S]; [constructor|]. cbn [weights_op]. eapply sized_conv. constructor; [exact S|constructor]. }
  assert (C1 : Forall conv (arrs ([OArr x] ++ [OPlain []; OArr y; OPlain []; weights_op w]))).
  { cbn [app arrs flat_map] in *. constructor; [exists s, k; exact Gx|]. constructor; [exists s, j; exact Gy|]. exact Cw. }
  destruct (prepare_conv _ _ C1) as (a1 & k1 & -> & A1 & K1 & _). cbn [bind]. set (fr := frame _) in *. clearbody fr.
  destruct (framed s j y fr Gy) as (c & Hc & Ec). exists c, (in_frame fr (OArr x)). split; [exact Hc|]. intros e0 He.
  destruct (keep (acf x)) as [kc|ek]; cbn [bind]; [|eexists; split; [reflexivity|discriminate]].
  destruct (h_reciprocal (acf x)) as [ic|ei]; cbn [bind k_args k_kw]; [|eexists; split; [reflexivity|intros _ (i & Q); discriminate]].
  destruct a1 as [|x1 [|? ?]]; try discriminate. destruct k1 as [|b1 [|r1 [|d1 [|w1 [|? ?]]]]]; try discriminate.
  unfold numbers in *. cbn [map] in *. injection A1 as E1. injection K1 as _ Er _ _.
  cbn [nbins_of range_numbers]. specialize (Ec (avals y)). rewrite renumbered_id in Ec. rewrite E1, Er, Ec, He. cbn [bind].
  eexists. split; [reflexivity|]. reflexivity.
Qed.

(** A range in the wrong order is refused, and so is one that has not two values. *)
Theorem C128_reversed : forall s k j kw x y lo hi n density w, good s k x -> good s j y -> good_weights s w kw ->
  avals y = [lo; hi] -> hi < lo -> np_histogram_in x (BNum n) (RArr y) density w = Err ValueError.
Proof.
  intros s k j kw x y lo hi n density w Gx Gy W Ey H. destruct (range_edges s k j kw x y n density w Gx Gy W) as (c & v & Hc & E).
  destruct (E ValueError) as (err & -> & Q).
  - rewrite Ey. cbn [scale map edges_in]. assert (c * hi < c * lo) by (apply Rmult_lt_compat_l; assumption).
    replace (Rltb (c * hi) (c * lo)) with true; [reflexivity|]. symmetry. apply Rltb_true. assumption.
  - f_equal. apply Q; rewrite (g_cf _ _ _ Gx); [reflexivity|eexists; reflexivity].
Qed.
Theorem C128_wrong_number : forall s k j kw x y n density w, good s k x -> good s j y -> good_weights s w kw ->
  length (avals y) <> 2%nat -> np_histogram_in x (BNum n) (RArr y) density w = Err ValueError.
Proof.
  intros s k j kw x y n density w Gx Gy W H. destruct (range_edges s k j kw x y n density w Gx Gy W) as (c & v & Hc & E).
  destruct (E ValueError) as (err & -> & Q).
  - destruct (avals y) as [|u [|u' [|? ?]]]; try reflexivity. cbn [length] in H. lia.
  - f_equal. apply Q; rewrite (g_cf _ _ _ Gx); [reflexivity|eexists; reflexivity].
Qed.

(** Two equal values are moved apart by half a unit of whatever frame the numbers end up in: the same range at the same place
    gives bins of different physical widths. *)
Theorem C128_equal_ends_refuted : exists s x y e, 0 < s /\ good s 1 x /\ good s 1 y /\ phys y = [2; 2]
  /\ np_histogram_in x (BNum 1) (RArr y) false None = Ok (OPlain [1], e) /\ good s 1 e /\ ~ equal_bins (2 - / 2) (2 + / 2) 1 (phys e).
Proof.
  exists 2, (cmv 2 1 [1]), (cmv 2 1 [1; 1]). eexists. split; [lra|]. split; [apply good_cmv|]. split; [apply good_cmv|].
  split; [unfold phys, cmv, lab; cbn [acm acf avals map]; rewrite rp21; repeat (f_equal; try ring)|].
  assert (T : forall a b, a <= b -> Rleb a b = true) by (intros a b Q; apply Rleb_true; exact Q).
  split.
  - unfold np_histogram_in. cbn [bins_op range_op weights_op].
    change (prepare_kw true [OArr (cmv 2 1 [1])] [OPlain []; OArr (cmv 2 1 [1; 1]); OPlain []; OPlain []])
      with (Ok (mkprepk [OArr (cmv 2 1 [1])] [OPlain []; OArr (cmv 2 1 [1; 1]); OPlain []; OPlain []]
                  [lab 2 1] [None; lab 2 1; None; None] (Some true) true CNone false)).
    cbn [bind cmv acf k_args k_kw op_vals avals nbins_of range_numbers phy app]. rewrite keep_ok. cbn [bind].
    change (h_reciprocal (lab 2 1)) with (Ok (lcf 2 (1 * -1))). cbn [bind edges_in].
    replace (Rltb 1 1) with false by (symmetry; destruct (Rltb 1 1) eqn:E; [apply Rltb_true in E; lra|reflexivity]).
    replace (Reqb 1 1) with true by (symmetry; unfold Reqb; destruct (Req_EM_T 1 1); [reflexivity|lra]). cbn [bind].
    replace (even (1 - / 2) (1 + / 2) 1) with [1 - / 2; 1 + / 2] by (unfold even; cbn [seq map INR]; f_equal; [field|f_equal; field]).
    f_equal. f_equal. unfold counts_label. cbn [orb]. f_equal. unfold histv. rewrite grid1. cbn [cells map].
    unfold weights_of. cbn [length repeat]. rewrite counted_cons. unfold counted. cbn [length seq map].
    cbn [inside nth length]. unfold in_cell. rewrite !T by lra. cbn [andb]. f_equal. cbn. lra.
  - split; [apply (good_label 2 1)|]. unfold phys, label, lab. cbn [acm acf avals map k_cm k_vt k_comp]. rewrite rp21. intros (_ & E & _). cbn [nth] in E. lra.
Qed.

(** Given edges make the range irrelevant, up to the frame it puts everything in. *)
Theorem C128_edges_win : forall s k j i kw x y z density w, good s k x -> good s j y -> good s i z -> good_weights s w kw -> acm y = acm x ->
  np_histogram_in x (BEdges (OArr z)) (RArr y) density w = np_histogram x (BEdges (OArr z)) density w.
Proof.
  intros s k j i kw x y z density w Gx Gy Gz W M. unfold np_histogram_in, np_histogram. cbn [bins_op range_op].
  assert (Cw : Forall conv (arrs [weights_op w])).
  { destruct W as [|o kw S]; [constructor|]. cbn [weights_op]. eapply sized_conv. constructor; [exact S|constructor]. }
  assert (C1 : Forall conv (arrs ([OArr x] ++ [OArr z; OArr y; OPlain []; weights_op w]))).
  { cbn [app arrs flat_map] in *. constructor; [exists s, k; exact Gx|]. constructor; [exists s, i; exact Gz|]. constructor; [exists s, j; exact Gy|]. exact Cw. }
  assert (C2 : Forall conv (arrs ([OArr x] ++ [OArr z; OPlain []; OPlain []; weights_op w]))).
  { cbn [app arrs flat_map] in *. constructor; [exists s, k; exact Gx|]. constructor; [exists s, i; exact Gz|]. exact Cw. }
  destruct (prepare_conv _ _ C1) as (a1 & k1 & -> & A1 & K1 & _). destruct (prepare_conv _ _ C2) as (a2 & k2 & -> & A2 & K2 & _).
  assert (Fr : frame ([OArr x] ++ [OArr z; OArr y; OPlain []; weights_op w]) = frame ([OArr x] ++ [OArr z; OPlain []; OPlain []; weights_op w])).
  { unfold frame. cbn [app arrs flat_map existsb]. rewrite M. destruct (is_true (acm x)), (is_true (acm z)); reflexivity. }
  assert (Co : comp_of ([OArr x] ++ [OArr z; OArr y; OPlain []; weights_op w]) = comp_of ([OArr x] ++ [OArr z; OPlain []; OPlain []; weights_op w])).
  { unfold comp_of. cbn [app map forallb op_comp comp_eqb Bool.eqb andb].
    destruct (comp_eqb (acomp x) (acomp z)), (comp_eqb (acomp x) (acomp y)); reflexivity. }
  rewrite Fr, Co in *. cbn [bind]. set (fr := frame _) in *. clearbody fr. set (cp := comp_of _). clearbody cp.
  destruct (keep (acf x)); [|reflexivity]. cbn [bind]. destruct (h_reciprocal (acf x)); [|reflexivity]. cbn [bind k_args k_kw].
  destruct a1 as [|x1 [|? ?]]; try discriminate. destruct a2 as [|x2 [|? ?]]; try discriminate.
  destruct k1 as [|b1 [|r1 [|d1 [|w1 [|? ?]]]]]; try discriminate. destruct k2 as [|b2 [|r2 [|d2 [|w2 [|? ?]]]]]; try discriminate.
  unfold numbers in *. cbn [map] in *. injection A1 as E1. injection A2 as E2. injection K1 as Eb1 _ _ Ew1. injection K2 as Eb _ _ Ew2.
  cbn [nbins_of range_numbers edges_in]. rewrite E1, E2, Eb1, Eb. cbn [bind edges].
  assert (Wv : weights_of (length (avals x)) w w1 = weights_of (length (avals x)) w w2).
  { unfold weights_of. destruct w; [|reflexivity]. rewrite Ew1, Ew2. reflexivity. }
  rewrite Wv. reflexivity.
Qed.

(** A case of the theorems: comoving data at a scale factor of 2, a physical range from 0 to 4, two bins. *)
Example C128_case : good 2 1 (cmv 2 1 [1; 3]) /\ good 2 1 (phy 2 1 [0; 4]) /\ phys (phy 2 1 [0; 4]) = [0; 4]
  /\ good_weights 2 None 0 /\ equal_bins 0 4 2 [0; 2; 4] /\ spread [1; 3] /\ least 1 [1; 3] /\ greatest 3 [1; 3]
  /\ acm (phy 2 1 [0]) = acm (phy 2 1 [1]) /\ framed_as (phy 2 1 [1]) (Some (OArr (phy 2 0 [5]))).
Proof.
  split; [apply good_cmv|]. split; [apply good_phy|]. split; [reflexivity|]. split; [constructor|].
  split; [split; [reflexivity|split; [reflexivity|split; [reflexivity|intros [|[|i]] Hi; [cbn [nth INR]; lra|cbn [nth INR]; lra|lia]]]]|].
  split; [exists 1, 3; repeat match goal with |- _ /\ _ => split end; [left; reflexivity|right; left; reflexivity|lra]|].
  split; [split; [left; reflexivity|intros u [<-|[<-|[]]]; lra]|]. split; [split; [right; left; reflexivity|intros u [<-|[<-|[]]]; lra]|].
  split; reflexivity.
Qed.

Print Assumptions C69_edges_meaning.
Print Assumptions C128_without.
Print Assumptions C128_array.
Print Assumptions C128_counts.
Print Assumptions C128_pair.
Print Assumptions C128_pair_refuted.
Print Assumptions C128_reversed.
Print Assumptions C128_wrong_number.
Print Assumptions C128_equal_ends_refuted.
Print Assumptions C128_edges_win.

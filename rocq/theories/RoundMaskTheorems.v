(** C113: spatial masks with rounded numbers. *)
From Coq Require Import List ZArith QArith Qabs Qreals Lqa Lia Lra Bool Floats.SpecFloat Reals.
From Flocq Require Import Core Sterbenz Mult_error.
From Verif Require Import Base BaseLemmas RangesModel RangesSpec MaskModel MaskListProofs MaskGeomProofs MaskProofs RoundModel RoundFloatModel
  RoundFloatTheorems RoundMaskModel RoundMaskSpec.
Import ListNotations.
Open Scope R_scope.

#[local] Instance prec_53 : Prec_gt_0 53. Proof. reflexivity. Qed.
Local Notation format := (generic_format radix2 (FLX_exp 53)).

(** * The mask of the cells is taken cell by cell, in any arithmetic *)

Definition axis_kept A (box : axis -> num A) (restrict : axis -> num A * num A) (c : fcell A) (a : axis) : bool :=
  match interval A (box a) (fst (restrict a)) (snd (restrict a)) with
  | None => true
  | Some (lower, upper) => selects A (box a) lower upper (f_min c a) (f_max c a)
  end.

Lemma mask_axis_map A box restrict cells g a :
  mask_axis A box restrict cells (map g cells) a = map (fun c => g c && axis_kept A box restrict c a) cells.
Proof.
  unfold mask_axis, axis_kept. destruct (interval _ _ _ _) as [[lo up]|].
  - rewrite masked_assign_map by now rewrite map_length.
    apply (map_combine_map g (fun c => selects A (box a) lo up (f_min c a) (f_max c a))).
  - apply map_ext. intros c. now rewrite andb_true_r.
Qed.

Theorem C113_cell_by_cell : forall A box restrict (cells : list (fcell A)),
  cell_mask A box restrict cells
  = if existsb (fun a => window_error A (box a) (fst (restrict a)) (snd (restrict a))) [AX; AY; AZ] then Err ValueError
    else Ok (map (fun c => forallb (axis_kept A box restrict c) [AX; AY; AZ]) cells).
Proof.
  intros A box restrict cells. unfold cell_mask. change axes with [AX; AY; AZ]. destruct (existsb _ _); [reflexivity|].
  f_equal. cbn [fold_left]. rewrite (mask_axis_map A box restrict cells (fun _ => true) AX).
  rewrite (mask_axis_map A box restrict cells (fun c => true && axis_kept A box restrict c AX) AY).
  rewrite (mask_axis_map A box restrict cells (fun c => true && axis_kept A box restrict c AX && axis_kept A box restrict c AY) AZ).
  apply map_ext. intros c. cbn [forallb]. rewrite andb_true_r, andb_true_l, andb_assoc. reflexivity.
Qed.

Lemma in_read_ranges A box restrict cells rs i : read_ranges_of A box restrict cells = Ok rs ->
  (In i (indices_of rs) <-> exists c, In c cells /\ (f_offset c <= i < f_offset c + f_count c)%Z
                                     /\ forall a, axis_kept A box restrict c a = true).
Proof.
  unfold read_ranges_of. rewrite C113_cell_by_cell. destruct (existsb _ _); [discriminate|].
  cbn [bind]. intros [= <-]. rewrite compress_map. unfold indices_of. rewrite in_flat_map. split.
  - intros (r & Hr & Hi). apply in_map_iff in Hr as (c & <- & Hc). apply filter_In in Hc as [Hc K]. exists c.
    cbn [fst snd] in Hi. apply In_zrange in Hi. split; [exact Hc|]. split; [lia|].
    cbn [forallb] in K. rewrite andb_true_r, !andb_true_iff in K. destruct K as (K1 & K2 & K3). intros []; assumption.
  - intros (c & Hc & Hi & K). exists (f_offset c, f_count c + f_offset c)%Z. split.
    + apply in_map_iff. exists c. split; [reflexivity|]. apply filter_In. split; [exact Hc|]. cbn [forallb]. rewrite !K. reflexivity.
    + cbn [fst snd]. apply In_zrange. lia.
Qed.

(** * Exact arithmetic: the model of C07 to C12 *)

Definition exactQ : arith :=
  mk_arith Q inject_Z (fun q => q) (fun x => x) (fun x => x) Qplus Qminus Qmult Qdiv (fun x y => x) (fun x => x)
    (fun x => x) (fun x => x) (fun x y => x) (fun x y => x) qltb Qle_bool Qeq_bool (fun _ => 0%Z) (fun _ => 0%Z).

Definition of_cell (c : MaskModel.cell) : fcell exactQ :=
  @mk_fcell exactQ (cell_offset c) (cell_count c) (cell_min c) (cell_max c).

Lemma qltb_compat x y x' y' : (x == x')%Q -> (y == y')%Q -> qltb x y = qltb x' y'.
Proof.
  intros E F. destruct (qltb x y) eqn:H; symmetry.
  - apply qltb_iff. apply qltb_iff in H. rewrite <- E, <- F. exact H.
  - apply qltb_false. apply qltb_false in H. rewrite <- E, <- F. exact H.
Qed.

Lemma absolute_exact x : (absolute exactQ x == Qabs x)%Q.
Proof.
  unfold absolute, zero. cbn [exactQ less lit sub]. destruct (qltb x 0) eqn:H.
  - apply qltb_iff in H. rewrite Qabs_neg by now apply Qlt_le_weak. ring.
  - apply qltb_false in H. rewrite Qabs_pos by exact H. reflexivity.
Qed.

Lemma interval_exact box lo up : interval exactQ box lo up = axis_interval box lo up.
Proof.
  unfold interval, axis_interval. cbn [exactQ less div lit sub add].
  rewrite (qltb_compat box (absolute exactQ (up - lo)%Q) box (Qabs (up - lo)) (Qeq_refl _) (absolute_exact _)). reflexivity.
Qed.

Theorem C113_exact : forall mm restrict,
  generate_cell_mask mm restrict
  = all_ok (map (fun k => cell_mask exactQ (mm_box mm) restrict (map of_cell (key_cells k))) (mm_keys mm))
  \/ mm_keys mm = [].
Proof.
  intros mm restrict. destruct (mm_keys mm) as [|k0 ks] eqn:E; [right; reflexivity|left]. rewrite <- E.
  rewrite generate_cell_mask_cases.
  assert (W : forall a, window_error exactQ (mm_box mm a) (fst (restrict a)) (snd (restrict a))
                        = out_of_window (mm_box mm a) (fst (restrict a)) (snd (restrict a))).
  { intro a. unfold window_error, out_of_window, opposite, zero. cbn [exactQ less div mul sub lit].
    set (lo := fst (restrict a)). set (up := snd (restrict a)). set (b := mm_box mm a).
    assert (O : ((0 - b) / 2 == - b / 2)%Q) by (field).
    rewrite (qltb_compat lo _ lo _ (Qeq_refl _) O), (qltb_compat up _ up _ (Qeq_refl _) O). reflexivity. }
  assert (X : existsb (fun a => window_error exactQ (mm_box mm a) (fst (restrict a)) (snd (restrict a))) [AX; AY; AZ]
              = existsb (fun a => out_of_window (mm_box mm a) (fst (restrict a)) (snd (restrict a))) axes).
  { unfold axes. cbn [existsb]. rewrite !W. reflexivity. }
  assert (K : forall c, forallb (axis_kept exactQ (mm_box mm) restrict (of_cell c)) [AX; AY; AZ] = cell_ok (mm_box mm) restrict c).
  { intro c. unfold cell_ok. cbn [forallb]. rewrite andb_true_r, andb_assoc.
    assert (KA : forall a, axis_kept exactQ (mm_box mm) restrict (of_cell c) a = axis_ok (mm_box mm) restrict a c).
    { intro a. unfold axis_kept, axis_ok. rewrite interval_exact. destruct (axis_interval _ _ _) as [[l u]|]; reflexivity. }
    rewrite !KA. reflexivity. }
  assert (CB : forall cells, cell_mask exactQ (mm_box mm) restrict cells
    = if existsb (fun a => out_of_window (mm_box mm a) (fst (restrict a)) (snd (restrict a))) axes then Err ValueError
      else Ok (map (fun c => forallb (axis_kept exactQ (mm_box mm) restrict c) [AX; AY; AZ]) cells)).
  { intro cells. rewrite <- X. exact (C113_cell_by_cell exactQ (mm_box mm) restrict cells). }
  rewrite E. destruct (existsb _ axes) eqn:B.
  - cbn [map all_ok]. rewrite CB. reflexivity.
  - assert (M : map (fun k => cell_mask exactQ (mm_box mm) restrict (map of_cell (key_cells k))) (k0 :: ks)
                = map Ok (map (fun k => map (cell_ok (mm_box mm) restrict) (key_cells k)) (k0 :: ks))).
    { rewrite map_map. apply map_ext. intro k. rewrite CB, map_map. f_equal. apply map_ext. exact K. }
    rewrite M. clear. generalize (map (fun k => map (cell_ok (mm_box mm) restrict) (key_cells k)) (k0 :: ks)). intro l.
    induction l as [|x l IH]; cbn [map all_ok]; [reflexivity|]. rewrite <- IH. reflexivity.
Qed.

(** The same for the boxes of the cells. *)
Theorem C113_extents_exact : forall rc rk,
  cell_extents rc rk
  = match rk_extent rk with
    | Some (minpos, maxpos) =>
        zip3 (fun c mn mx => ((fun a => stored_low exactQ (c a) (rc_size rc a) (mn a)), (fun a => stored_high exactQ (c a) (rc_size rc a) (mx a))))
             (rc_centres rc) minpos maxpos
    | None => map (fun c => ((fun a => padded_low exactQ (c a) (rc_size rc a) (rc_pad rc)), (fun a => padded_high exactQ (c a) (rc_size rc a) (rc_pad rc))))
                  (rc_centres rc)
    end.
Proof. intros rc rk. unfold cell_extents. destruct (rk_extent rk) as [[mn mx]|]; reflexivity. Qed.

(** * Rounded numbers *)

Lemma less_iff x y : less rounded x y = true <-> x < y.
Proof. cbn [rounded less]. destruct (Rlt_dec x y); split; intro; try assumption; try discriminate; try reflexivity. contradiction. Qed.
Lemma less_no x y : less rounded x y = false <-> y <= x.
Proof. cbn [rounded less]. destruct (Rlt_dec x y); split; intro; try discriminate; try reflexivity; lra. Qed.

Lemma format_opp x : format x -> format (- x).
Proof. apply generic_format_opp. Qed.
Lemma lit_two : lit rounded 2 = 2.
Proof. cbn [rounded lit]. replace (Q2R 2) with 2 by (unfold Q2R; cbn; lra). apply rnd_id. apply (int_format 53 2); lia. Qed.
Lemma lit_three : lit rounded 3 = 3.
Proof. cbn [rounded lit]. replace (Q2R 3) with 3 by (unfold Q2R; cbn; lra). apply rnd_id. apply (int_format 53 3); lia. Qed.
Lemma zero_rounded : zero rounded = 0.
Proof. unfold zero. cbn [rounded lit]. replace (Q2R 0) with 0 by (unfold Q2R; cbn; lra). apply rnd_0. Qed.
Lemma half_format x : format x -> format (x / 2).
Proof.
  intro F. replace (x / 2) with (x * bpow radix2 (-1)) by (cbn; lra). apply mult_bpow_exact_FLX. exact F.
Qed.
Lemma half_rounded : half rounded = / 2.
Proof.
  unfold half. cbn [rounded lit]. replace (Q2R (1 # 2)) with (1 / 2) by (unfold Q2R; cbn; lra). rewrite rnd_id; [lra|].
  apply half_format. apply (int_format 53 1); lia.
Qed.

Lemma exact_difference x y : format x -> format y -> y / 2 <= x <= 2 * y -> rnd 53 (x - y) = x - y.
Proof.
  intros Fx Fy H. apply rnd_id. apply sterbenz; try typeclasses eauto; assumption.
Qed.

(** The copies of a position. *)
Lemma copy_value box x s : format box -> In s [-1; 0; 1]%Z -> copy_of rounded box x s = rnd 53 (x + IZR s * box).
Proof.
  intros F H. unfold copy_of. cbn [rounded add mul of_int]. unfold rnd2. f_equal. f_equal. apply rnd_id.
  destruct H as [<-|[<-|[<-|[]]]].
  - replace (-1 * box) with (- box) by lra. apply format_opp. exact F.
  - rewrite Rmult_0_l. apply generic_format_0.
  - rewrite Rmult_1_l. exact F.
Qed.

Lemma selects_iff box lo up cmin cmax : format box ->
  (selects rounded box lo up cmin cmax = true
   <-> exists s, In s [-1; 0; 1]%Z /\ lo < rnd 53 (cmax + IZR s * box) /\ rnd 53 (cmin + IZR s * box) < up).
Proof.
  intro F. unfold selects. rewrite existsb_exists. split; intros (s & Hs & H); exists s; split; try exact Hs.
  - apply andb_true_iff in H as [H1 H2]. apply less_iff in H1. apply less_iff in H2. rewrite copy_value in H1, H2 by assumption. split; assumption.
  - apply andb_true_iff. rewrite !less_iff, !copy_value by assumption. exact H.
Qed.

(** A cell is kept if a copy of one of its positions, as computed, is inside of the interval, as computed. *)
Theorem C113_computed : forall box lo up cmin cmax x s, format box -> In s [-1; 0; 1]%Z -> cmin <= x <= cmax ->
  lo < rnd 53 (x + IZR s * box) < up -> selects rounded box lo up cmin cmax = true.
Proof.
  intros box lo up cmin cmax x s F Hs (C0 & C1) (L & U). apply selects_iff; [exact F|]. exists s. split; [exact Hs|]. split.
  - eapply Rlt_le_trans; [exact L|]. apply rnd_le. lra.
  - eapply Rle_lt_trans; [|exact U]. apply rnd_le. lra.
Qed.

(** Rounding never adds a cell: what is kept overlaps the interval in exact arithmetic. *)
Theorem C113_nothing_more : forall box lo up cmin cmax, format box -> format lo -> format up ->
  selects rounded box lo up cmin cmax = true ->
  exists s, In s [-1; 0; 1]%Z /\ lo < cmax + IZR s * box /\ cmin + IZR s * box < up.
Proof.
  intros box lo up cmin cmax F L U H. apply selects_iff in H; [|exact F]. destruct H as (s & Hs & H1 & H2). exists s. split; [exact Hs|]. split.
  - apply Rnot_le_lt. intro C. apply rnd_le in C. rewrite (rnd_id lo L) in C. lra.
  - apply Rnot_le_lt. intro C. apply rnd_le in C. rewrite (rnd_id up U) in C. lra.
Qed.

(** * The boxes of the cells contain their particles *)

Theorem C113_stored_extent : forall centre size minpos maxpos x, minpos <= x <= maxpos ->
  stored_low rounded centre size minpos <= x <= stored_high rounded centre size maxpos.
Proof.
  intros centre size minpos maxpos x (H0 & H1). unfold stored_low, stored_high. cbv zeta. split.
  - destruct (less rounded _ minpos) eqn:E; [apply less_iff in E; lra|exact H0].
  - destruct (less rounded maxpos _) eqn:E; [apply less_iff in E; lra|exact H1].
Qed.

Theorem C113_padded_extent : forall centre size pad x, format x -> format size -> 0 <= pad -> 0 <= size ->
  Rabs (x - centre) <= size / 2 ->
  padded_low rounded centre size pad <= x <= padded_high rounded centre size pad.
Proof.
  intros centre size pad x Fx Fs P S H. apply Rabs_le_inv in H. unfold padded_low, padded_high.
  cbn [rounded sub add mul]. rewrite half_rounded. unfold rnd2.
  assert (W : / 2 <= rnd 53 (pad + / 2)).
  { rewrite <- (rnd_id (/ 2)) at 1; [apply rnd_le; lra|]. replace (/ 2) with (1 / 2) by lra. apply half_format. apply (int_format 53 1); lia. }
  assert (V : size / 2 <= rnd 53 (rnd 53 (pad + / 2) * size)).
  { rewrite <- (rnd_id (size / 2)) at 1 by (apply half_format; exact Fs). apply rnd_le. nra. }
  split; rewrite <- (rnd_id x) by exact Fx; apply rnd_le; lra.
Qed.

(** * Nothing is lost *)

Lemma interval_rounded box lo up : format box -> format lo -> format up -> 0 < box ->
  interval rounded box lo up = None
  \/ (lo <= up /\ interval rounded box lo up = Some (lo, up))
  \/ (up < lo /\ box / 2 < lo /\ interval rounded box lo up = Some (rnd 53 (lo - box), up))
  \/ (up < lo /\ lo <= box / 2 /\ up < box / 2 /\ interval rounded box lo up = Some (lo, rnd 53 (up + box))).
Proof.
  intros Fb Fl Fu B. unfold interval. destruct (less rounded box _) eqn:E1; [left; reflexivity|right].
  assert (H2 : div rounded box (lit rounded 2) = box / 2).
  { rewrite lit_two. cbn [rounded div]. apply rnd_id. apply half_format. exact Fb. }
  rewrite H2. destruct (less rounded up lo) eqn:E2.
  - apply less_iff in E2. right. destruct (less rounded (box / 2) lo) eqn:E3.
    + apply less_iff in E3. left. split; [exact E2|]. split; [exact E3|reflexivity].
    + apply less_no in E3. right. assert (U : up < box / 2) by lra. pose proof (proj2 (less_iff up (box / 2)) U) as U'. rewrite U'.
      split; [exact E2|]. split; [exact E3|]. split; [exact U|reflexivity].
  - apply less_no in E2. left. split; [exact E2|reflexivity].
Qed.

Lemma kept_robust box lo up cmin cmax x : format box -> format lo -> format up -> format x -> 0 < box ->
  robust box lo up -> cmin <= x <= cmax -> 0 <= x <= box -> in_interval box lo up x ->
  match interval rounded box lo up with None => true | Some (l, u) => selects rounded box l u cmin cmax end = true.
Proof.
  intros Fb Fl Fu Fx B (L & U & R) C X (j & J1 & J2).
  destruct (interval_rounded box lo up Fb Fl Fu B) as [E|[(O & E)|[(O & H & E)|(O & H & _)]]]; [rewrite E; reflexivity| | |lra]; rewrite E.
  - destruct J2 as [[_ J2]|[J2 _]]; [|lra].
    assert (j = 0)%Z.
    { assert (-1 < IZR j) by (apply Rmult_lt_reg_r with box; [exact B|]; lra). assert (IZR j < 1) by (apply Rmult_lt_reg_r with box; [exact B|]; lra).
      apply (lt_IZR (-1)) in H. apply (lt_IZR j 1) in H0. lia. }
    subst j. apply (C113_computed box lo up cmin cmax x 0); [exact Fb|cbn; tauto|exact C|].
    rewrite Rmult_0_l, Rplus_0_r in *. rewrite (rnd_id x Fx). lra.
  - destruct J2 as [[J2 _]|[_ J2]]; [lra|].
    assert (E0 : rnd 53 (lo - box) = lo - box) by (apply exact_difference; [exact Fl|exact Fb|lra]).
    rewrite E0. assert (H1 : IZR j < 2) by (apply Rmult_lt_reg_r with box; [exact B|]; lra).
    assert (H0 : -1 < IZR j) by (apply Rmult_lt_reg_r with box; [exact B|]; lra).
    apply (lt_IZR (-1)) in H0. apply (lt_IZR j 2) in H1. assert (D : (j = 0 \/ j = 1)%Z) by lia. destruct D as [-> | ->].
    + apply (C113_computed box (lo - box) up cmin cmax x (-1)); [exact Fb|cbn; tauto|exact C|].
      replace (x + -1 * box) with (x - box) by lra. rewrite Rmult_0_l, Rplus_0_r in *.
      rewrite exact_difference by (try assumption; lra). lra.
    + apply (C113_computed box (lo - box) up cmin cmax x 0); [exact Fb|cbn; tauto|exact C|].
      rewrite Rmult_0_l, Rplus_0_r. rewrite (rnd_id x Fx). lra.
Qed.

Lemma window_robust box lo up : format box -> 0 < box -> robust box lo up -> window_error rounded box lo up = false.
Proof.
  intros Fb B (L & U & _). unfold window_error, opposite. rewrite lit_two, lit_three, zero_rounded. cbn [rounded div mul sub]. unfold rnd2.
  replace (0 - box) with (- box) by lra. rewrite (rnd_id (- box)) by (apply format_opp; exact Fb).
  rewrite (rnd_id (- box / 2)) by (apply half_format, format_opp; exact Fb).
  assert (T : box <= rnd 53 (rnd 53 (3 * box) / 2)).
  { rewrite <- (rnd_id box) at 1 by exact Fb. apply rnd_le.
    assert (2 * box <= rnd 53 (3 * box)); [|lra]. rewrite <- (rnd_id (2 * box)) at 1; [apply rnd_le; lra|].
    replace (2 * box) with (box * bpow radix2 1) by (cbn; lra). apply mult_bpow_exact_FLX. exact Fb. }
  rewrite !orb_false_iff. repeat split; apply less_no; cbn; lra.
Qed.

(** Every row of which the position is in the region is read. *)
Theorem C113_complete : forall (box : axis -> R) (restrict : axis -> R * R) (cells : list (fcell rounded)) c i (p : axis -> R),
  (forall a, 0 < box a /\ format (box a) /\ format (fst (restrict a)) /\ format (snd (restrict a))
             /\ robust (box a) (fst (restrict a)) (snd (restrict a))) ->
  In c cells -> (f_offset c <= i < f_offset c + f_count c)%Z ->
  (forall a, format (p a) /\ 0 <= p a <= box a /\ f_min c a <= p a <= f_max c a
             /\ in_interval (box a) (fst (restrict a)) (snd (restrict a)) (p a)) ->
  exists rs, read_ranges_of rounded box restrict cells = Ok rs /\ In i (indices_of rs).
Proof.
  intros box restrict cells c i p H Hc Hi P.
  destruct (read_ranges_of rounded box restrict cells) as [rs|e] eqn:E.
  - exists rs. split; [reflexivity|]. apply (in_read_ranges _ _ _ _ _ _ E). exists c. split; [exact Hc|]. split; [exact Hi|].
    intro a. destruct (H a) as (B & Fb & Fl & Fu & R). destruct (P a) as (Fp & X & C & I).
    unfold axis_kept. exact (kept_robust _ _ _ _ _ (p a) Fb Fl Fu Fp B R C X I).
  - exfalso. unfold read_ranges_of in E. rewrite C113_cell_by_cell in E. destruct (existsb _ _) eqn:W; [|discriminate].
    apply existsb_exists in W as (a & _ & W). destruct (H a) as (B & Fb & Fl & Fu & Rb).
    pose proof (window_robust _ _ _ Fb B Rb) as V. exact (diff_true_false (eq_trans (eq_sym W) V)).
Qed.

(** * What is lost *)

Open Scope Z_scope.

(** One tenth, as a number of 53 bits, and the next one. *)
Definition tenth : spec_float := dbl 3602879701896397 (-55).
Definition tenth_next : spec_float := dbl 7205759403792795 (-56).

(** A region inside of the box, wrapped around its edge, and a particle in it that is not read: box of 1,
    from 0.4 to 0.1 (and one unit in the last place), position 0.1 at the lower edge of its cell. *)
Theorem C113_lost_refuted : exists (box : axis -> spec_float) (restrict : axis -> spec_float * spec_float) (c : fcell ieee) (x : spec_float),
  (forall a, box a = dbl 1 0) /\ (forall a, a <> AX -> restrict a = (dbl 0 0, dbl 1 0))
  /\ restrict AX = (dbl 3 (-3), tenth_next)
  /\ SFltb x tenth_next = true /\ SFleb (f_min c AX) x = true /\ SFleb x (f_max c AX) = true
  /\ 0 < f_count c /\ read_ranges_of ieee box restrict [c] = Ok [].
Proof.
  exists (fun _ => dbl 1 0), (fun a => match a with AX => (dbl 3 (-3), tenth_next) | _ => (dbl 0 0, dbl 1 0) end),
    (@mk_fcell ieee 0 10 (fun _ => tenth) (fun _ => dbl 1 (-2))), tenth.
  split; [reflexivity|]. split; [intros [] H; [congruence|reflexivity|reflexivity]|]. split; [reflexivity|].
  split; [vm_compute; reflexivity|]. split; [vm_compute; reflexivity|]. split; [vm_compute; reflexivity|].
  split; [cbn; lia|]. vm_compute. reflexivity.
Qed.

(** The same with the lower bound in the upper half of the box: the particle is read. *)
Example C113_example :
  read_ranges_of ieee (fun _ => dbl 1 0) (fun a => match a with AX => (dbl 5 (-3), tenth_next) | _ => (dbl 0 0, dbl 1 0) end)
    [@mk_fcell ieee 0 10 (fun _ => tenth) (fun _ => dbl 1 (-2)); @mk_fcell ieee 10 5 (fun _ => dbl 1 (-2)) (fun _ => dbl 1 (-1))]
  = Ok [(0, 10)].
Proof. vm_compute. reflexivity. Qed.

Example C113_example_hypotheses : (robust 1 (3 / 4) (1 / 8) /\ robust 1 0 1 /\ in_interval 1 (3 / 4) (1 / 8) (7 / 8) /\ in_interval 1 0 1 (1 / 2))%R.
Proof.
  unfold robust, in_interval. split; [lra|]. split; [lra|]. split; exists 0%Z; lra.
Qed.

Print Assumptions C113_cell_by_cell.
Print Assumptions C113_exact.
Print Assumptions C113_extents_exact.
Print Assumptions C113_computed.
Print Assumptions C113_nothing_more.
Print Assumptions C113_stored_extent.
Print Assumptions C113_padded_extent.
Print Assumptions C113_complete.
Print Assumptions C113_lost_refuted.

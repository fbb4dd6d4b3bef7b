From Coq Require Import List Arith Reals Bool Lia Lra Permutation.
From Verif Require Import Base BaseLemmas VisModel VolImageModel VolImageSpec.
Import ListNotations.
Open Scope R_scope.

Lemma sqrt_2pi_pos : 0 < sqrt (2 * PI).
Proof. apply sqrt_lt_R0. pose proof PI_RGT_0. lra. Qed.

Lemma voxel_term_gauss c w v : w <> 0 -> voxel_term c w v = Ok (gauss c w v).
Proof.
  intros Hw. unfold voxel_term, gauss. destruct (Req_EM_T w 0) as [E|_]; [contradiction|].
  cbv zeta. f_equal.
  replace (- (1 / 2) * ((c - v) / w) * ((c - v) / w)) with (- (((c - v) / w) ^ 2 / 2)) by (field; exact Hw).
  pose proof sqrt_2pi_pos. field. split; [lra|exact Hw].
Qed.

Lemma column_loop_light d c w i j ks out : w <> 0 ->
  column_loop d c w i j ks out = Ok (out + sumR (map (gauss c w) (map (vat d i j) ks))).
Proof.
  intros Hw. revert out. induction ks as [|k ks IH]; intros out; cbn [column_loop map].
  - unfold sumR. cbn. f_equal. lra.
  - rewrite voxel_term_gauss by exact Hw. cbn [bind]. rewrite IH. f_equal. unfold sumR. cbn [fold_right]. lra.
Qed.
Lemma column_light d c w i j : w <> 0 -> column_loop d c w i j (seq 0 (vz d)) 0 = Ok (light d c w i j).
Proof. intros Hw. rewrite column_loop_light by exact Hw. f_equal. unfold light, column. lra. Qed.

Lemma write_in g a b v : (a < rows g)%nat -> (b < cols g)%nat ->
  exists g', write g a b v = Ok g' /\ rows g' = rows g /\ cols g' = cols g /\ at2 g' a b = v /\
    (forall p q, (p, q) <> (a, b) -> at2 g' p q = at2 g p q).
Proof.
  intros Ha Hb. unfold write. apply Nat.ltb_lt in Ha, Hb. rewrite Ha, Hb. cbn [andb]. eexists.
  split; [reflexivity|]. cbn [rows cols at2]. rewrite !Nat.eqb_refl. cbn [andb].
  repeat split. intros p q N. destruct (Nat.eqb_spec p a) as [->|]; [|reflexivity].
  destruct (Nat.eqb_spec q b) as [->|]; [contradiction|reflexivity].
Qed.

Lemma row_loop_pixels d c w i js : w <> 0 -> forall g, (forall j, In j js -> (j < rows g)%nat) ->
  (i < cols g)%nat -> NoDup js ->
  exists g', row_loop d c w i js g = Ok g' /\ rows g' = rows g /\ cols g' = cols g /\
    (forall j, In j js -> at2 g' j i = light d c w i j) /\
    (forall p q, q <> i \/ ~ In p js -> at2 g' p q = at2 g p q).
Proof.
  intros Hw. induction js as [|j js IH]; intros g Hj Hi Hn; cbn [row_loop].
  - exists g. repeat split; try reflexivity. intros j [].
  - rewrite column_light by exact Hw. cbn [bind].
    destruct (write_in g j i (light d c w i j)) as (g1 & E & R1 & C1 & A1 & O1); [apply Hj; left; reflexivity|exact Hi|].
    rewrite E. cbn [bind]. inversion Hn as [|? ? N1 N2]; subst.
    destruct (IH g1) as (g2 & E2 & R2 & C2 & A2 & O2);
      [intros; rewrite R1; apply Hj; right; assumption|rewrite C1; exact Hi|exact N2|].
    exists g2. split; [exact E2|]. split; [congruence|]. split; [congruence|]. split.
    + intros j' [<-|Hin]; [|apply A2; exact Hin]. rewrite O2 by (right; exact N1). exact A1.
    + intros p q Hpq. rewrite O2 by (destruct Hpq as [|Hp]; [left; assumption|right; intros Q; apply Hp; right; exact Q]).
      apply O1. intros Q. injection Q as -> ->. destruct Hpq as [Q|Q]; [congruence|apply Q; left; reflexivity].
Qed.

Lemma image_loop_pixels d c w is : w <> 0 -> forall g, (vy d <= rows g)%nat ->
  (forall i, In i is -> (i < cols g)%nat) -> NoDup is ->
  exists g', image_loop d c w is g = Ok g' /\ rows g' = rows g /\ cols g' = cols g /\
    (forall i j, In i is -> (j < vy d)%nat -> at2 g' j i = light d c w i j) /\
    (forall p q, ~ In q is -> at2 g' p q = at2 g p q).
Proof.
  intros Hw. induction is as [|i is IH]; intros g Hr Hi Hn; cbn [image_loop].
  - exists g. repeat split; try reflexivity. intros i j [].
  - inversion Hn as [|? ? N1 N2]; subst.
    destruct (row_loop_pixels d c w i (seq 0 (vy d)) Hw g) as (g1 & E & R1 & C1 & A1 & O1);
      [intros j Hj; apply in_seq in Hj; lia|apply Hi; left; reflexivity|apply seq_NoDup|].
    rewrite E. cbn [bind].
    destruct (IH g1) as (g2 & E2 & R2 & C2 & A2 & O2);
      [rewrite R1; exact Hr|intros; rewrite C1; apply Hi; right; assumption|exact N2|].
    exists g2. split; [exact E2|]. split; [congruence|]. split; [congruence|]. split.
    + intros i' j [<-|Hin] Hj; [|apply A2; assumption].
      rewrite O2 by exact N1. apply A1. apply in_seq. lia.
    + intros p q Hq. rewrite O2 by (intros Q; apply Hq; right; exact Q).
      apply O1. left. intros ->. apply Hq. left. reflexivity.
Qed.

Lemma render_pixels d c w : w <> 0 -> vx d = vy d ->
  exists g, render_voxels_to_array d c w = Ok g /\ rows g = vx d /\ cols g = vy d /\
    (forall i j, columns_of d i j -> at2 g j i = light d c w i j).
Proof.
  intros Hw Hs. unfold render_voxels_to_array.
  destruct (image_loop_pixels d c w (seq 0 (vx d)) Hw (zeros (vx d) (vy d))) as (g & E & R & C & A & _);
    cbn [zeros rows cols]; [lia|intros i Hi; apply in_seq in Hi; lia|apply seq_NoDup|].
  exists g. repeat split; try assumption.
  intros i j [Hi Hj]. apply A; [apply in_seq; lia|exact Hj].
Qed.

(** A grid that is not square is written outside of its bounds. *)
Lemma row_loop_shape d c w i js g g' : row_loop d c w i js g = Ok g' -> rows g' = rows g /\ cols g' = cols g.
Proof.
  revert g. induction js as [|j js IH]; intros g E; cbn [row_loop] in E.
  - injection E as <-. split; reflexivity.
  - destruct (column_loop _ _ _ _ _ _ _) as [o|e]; [|discriminate]. cbn [bind] in E. unfold write in E.
    destruct ((j <? rows g) && (i <? cols g))%nat; [|discriminate]. cbn [bind] in E.
    apply IH in E. exact E.
Qed.
Lemma row_loop_out d c w i js g j : w <> 0 -> In j js -> ((rows g <= j)%nat \/ (cols g <= i)%nat) ->
  row_loop d c w i js g = Err UndefinedRead.
Proof.
  intros Hw. revert g. induction js as [|j0 js IH]; intros g [] Hout; cbn [row_loop]; rewrite column_light by exact Hw; cbn [bind].
  - subst j0. unfold write. replace ((j <? rows g) && (i <? cols g))%nat with false; [reflexivity|].
    symmetry. apply andb_false_iff. destruct Hout; [left|right]; apply Nat.ltb_ge; assumption.
  - unfold write at 1. destruct ((j0 <? rows g) && (i <? cols g))%nat; [|reflexivity]. cbn [bind].
    apply IH; assumption.
Qed.
Lemma row_loop_total d c w i js g : w <> 0 ->
  (exists g', row_loop d c w i js g = Ok g') \/ row_loop d c w i js g = Err UndefinedRead.
Proof.
  intros Hw. revert g. induction js as [|j js IH]; intros g; cbn [row_loop]; [left; eexists; reflexivity|].
  rewrite column_light by exact Hw. cbn [bind]. unfold write at 1 2.
  destruct ((j <? rows g) && (i <? cols g))%nat; cbn [bind]; [apply IH|right; reflexivity].
Qed.
Lemma image_loop_out d c w is g i j : w <> 0 -> In i is -> (j < vy d)%nat ->
  ((rows g <= j)%nat \/ (cols g <= i)%nat) -> image_loop d c w is g = Err UndefinedRead.
Proof.
  intros Hw. revert g. induction is as [|i0 is IH]; intros g [] Hj Hout; cbn [image_loop].
  - subst i0. rewrite (row_loop_out d c w i _ g j); [reflexivity|exact Hw|apply in_seq; lia|exact Hout].
  - destruct (row_loop_total d c w i0 (seq 0 (vy d)) g Hw) as [[g' E]|E]; rewrite E; cbn [bind]; [|reflexivity].
    destruct (row_loop_shape _ _ _ _ _ _ _ E) as [E1 E2].
    apply IH; [assumption|exact Hj|]. rewrite E1, E2. exact Hout.
Qed.

(** Limits. *)
Lemma fold_min l x : (In (fold_left Rmin l x) (x :: l)) /\ (forall y, In y (x :: l) -> fold_left Rmin l x <= y).
Proof.
  revert x. induction l as [|a l IH]; intros x; cbn [fold_left].
  - split; [left; reflexivity|]. intros y [<-|[]]. lra.
  - destruct (IH (Rmin x a)) as [I L]. split.
    + destruct I as [I|I]; [|right; right; exact I]. rewrite <- I. unfold Rmin. destruct (Rle_dec x a); [left|right; left]; reflexivity.
    + pose proof (L _ (or_introl eq_refl)) as L0.
      intros y [<-|[<-|Hy]]; [apply Rle_trans with (Rmin x a); [exact L0|apply Rmin_l]
        |apply Rle_trans with (Rmin x a); [exact L0|apply Rmin_r]|apply L; right; exact Hy].
Qed.
Lemma fold_max l x : (In (fold_left Rmax l x) (x :: l)) /\ (forall y, In y (x :: l) -> y <= fold_left Rmax l x).
Proof.
  revert x. induction l as [|a l IH]; intros x; cbn [fold_left].
  - split; [left; reflexivity|]. intros y [<-|[]]. lra.
  - destruct (IH (Rmax x a)) as [I L]. split.
    + destruct I as [I|I]; [|right; right; exact I]. rewrite <- I. unfold Rmax. destruct (Rle_dec x a); [right; left|left]; reflexivity.
    + pose proof (L _ (or_introl eq_refl)) as L0.
      intros y [<-|[<-|Hy]]; [apply Rle_trans with (Rmax x a); [apply Rmax_l|exact L0]
        |apply Rle_trans with (Rmax x a); [apply Rmax_r|exact L0]|apply L; right; exact Hy].
Qed.

Definition shows (d : voxels) (c w : R) (g : grid) : Prop :=
  rows g = vx d /\ cols g = vy d /\ forall i j, columns_of d i j -> at2 g j i = light d c w i j.

Lemma in_values d c w g v : vx d = vy d -> shows d c w g ->
  (In v (values g) <-> exists i j, columns_of d i j /\ light d c w i j = v).
Proof.
  intros Hs (Hr & Hc & A). unfold values. rewrite in_flat_map. split.
  - intros (p & Hp & Hv). apply in_map_iff in Hv. destruct Hv as (q & <- & Hq).
    apply in_seq in Hp, Hq. exists q, p. assert (C : columns_of d q p) by (split; lia).
    split; [exact C|]. symmetry. apply A. exact C.
  - intros (i & j & C & <-). pose proof C as [Hi Hj]. exists j. split; [apply in_seq; lia|].
    apply in_map_iff. exists i. split; [apply A; exact C|apply in_seq; lia].
Qed.
Lemma values_nonempty d c w g : vx d = vy d -> (0 < vx d)%nat -> shows d c w g -> values g <> [].
Proof.
  intros Hs Hp S E. assert (H : In (light d c w 0 0) (values g)).
  { apply (in_values d c w g _ Hs S). exists 0%nat, 0%nat. split; [split; lia|reflexivity]. }
  rewrite E in H. destruct H.
Qed.
Lemma least_darkest d c w g : vx d = vy d -> (0 < vx d)%nat -> shows d c w g ->
  exists v, least_of (values g) = Some v /\ darkest d c w v.
Proof.
  intros Hs Hp S. pose proof (values_nonempty d c w g Hs Hp S) as N.
  pose proof (in_values d c w g) as I. destruct (values g) as [|x l]; [contradiction|].
  exists (fold_left Rmin l x). split; [reflexivity|]. destruct (fold_min l x) as [A B]. split.
  - apply (I _ Hs S). exact A.
  - intros i j C. apply B. apply (I _ Hs S). exists i, j. split; [exact C|reflexivity].
Qed.
Lemma greatest_brightest d c w g : vx d = vy d -> (0 < vx d)%nat -> shows d c w g ->
  exists v, greatest_of (values g) = Some v /\ brightest d c w v.
Proof.
  intros Hs Hp S. pose proof (values_nonempty d c w g Hs Hp S) as N.
  pose proof (in_values d c w g) as I. destruct (values g) as [|x l]; [contradiction|].
  exists (fold_left Rmax l x). split; [reflexivity|]. destruct (fold_max l x) as [A B]. split.
  - apply (I _ Hs S). exact A.
  - intros i j C. apply B. apply (I _ Hs S). exists i, j. split; [exact C|reflexivity].
Qed.

Lemma norm_call_scaled d c w g n n' g' : vx d = vy d -> (0 < vx d)%nat -> shows d c w g ->
  norm_call n g = Ok (n', g') ->
  exists lo hi, nmin n' = Some lo /\ nmax n' = Some hi /\ nclip n' = nclip n /\
    (nmin n = Some lo \/ (nmin n = None /\ darkest d c w lo)) /\
    (nmax n = Some hi \/ (nmax n = None /\ brightest d c w hi)) /\
    rows g' = vx d /\ cols g' = vy d /\
    (forall i j, columns_of d i j -> scaled (nclip n) lo hi (light d c w i j) (at2 g' j i)).
Proof.
  intros Hs Hp S E. destruct (least_darkest d c w g Hs Hp S) as (a & Ea & Da).
  destruct (greatest_brightest d c w g Hs Hp S) as (b & Eb & Db).
  destruct S as (Sr & Sc & A). unfold norm_call in E. rewrite Ea, Eb in E.
  set (lo := match nmin n with Some v => v | None => a end).
  set (hi := match nmax n with Some v => v | None => b end).
  replace (match nmin n with Some v => Some v | None => Some a end) with (Some lo) in E by (unfold lo; destruct (nmin n); reflexivity).
  replace (match nmax n with Some v => Some v | None => Some b end) with (Some hi) in E by (unfold hi; destruct (nmax n); reflexivity).
  cbn beta iota zeta in E. exists lo, hi.
  assert (L1 : nmin n = Some lo \/ nmin n = None /\ darkest d c w lo) by (unfold lo; destruct (nmin n); [left; reflexivity|right; split; [reflexivity|exact Da]]).
  assert (L2 : nmax n = Some hi \/ nmax n = None /\ brightest d c w hi) by (unfold hi; destruct (nmax n); [left; reflexivity|right; split; [reflexivity|exact Db]]).
  destruct (Req_EM_T lo hi) as [Q|Q]; [|destruct (Rlt_dec hi lo) as [|Q2]; [discriminate|]]; injection E as <- <-;
    cbn [nmin nmax nclip rows cols at2 zeros]; do 7 (split; [first [reflexivity|assumption]|]).
  - intros i j _. left. split; [exact Q|reflexivity].
  - intros i j C. right. split; [lra|]. rewrite (A i j C). set (v := light d c w i j).
    exists (if nclip n then Rmin (Rmax v lo) hi else v). split; [field; lra|].
    destruct (nclip n); [right|left; split; reflexivity].
    split; [reflexivity|]. unfold Rmin, Rmax. destruct (Rle_dec v lo); destruct (Rle_dec _ hi); repeat split; intros; lra.
Qed.

Lemma first_use_head r refs k k0 : nth_error (r :: refs) k = Some r -> first_use (r :: refs) k k0 -> k0 = 0%nat.
Proof.
  intros E (_ & _ & N). destruct k0 as [|k0]; [reflexivity|]. exfalso. apply (N 0%nat); [lia|].
  rewrite E. reflexivity.
Qed.

Lemma norm_call_set n g n' g' lo hi : nmin n = Some lo -> nmax n = Some hi -> norm_call n g = Ok (n', g') -> n' = n.
Proof.
  intros A B E. unfold norm_call in E. rewrite A, B in E. destruct n as [a b c]. cbn in A, B. subst a b. cbn in E.
  destruct (Req_EM_T lo hi); [injection E as <- <-; reflexivity|]. destruct (Rlt_dec hi lo); [discriminate|].
  injection E as <- <-. reflexivity.
Qed.
(** Objects whose limits are set stay as they are. *)
Lemma render_all_set d : forall refs heap centers widths heap' gs r n lo hi,
  render_all d heap refs centers widths = Ok (heap', gs) -> nth_error heap r = Some n ->
  nmin n = Some lo -> nmax n = Some hi -> nth_error heap' r = Some n.
Proof.
  induction refs as [|r0 refs IH]; intros heap centers widths heap' gs r n lo hi E H A B.
  { cbn [render_all] in E. injection E as <- <-. exact H. }
  destruct centers as [|c centers]; cbn [render_all] in E; [injection E as <- <-; exact H|].
  destruct widths as [|w widths]; [injection E as <- <-; exact H|].
  destruct (render_voxels_to_array d c w) as [g0|]; [|discriminate]. cbn [bind] in E.
  destruct (nth_error heap r0) as [n0|] eqn:En; [|discriminate].
  destruct (norm_call n0 g0) as [[n' g1]|] eqn:Ec; [|discriminate]. cbn [bind fst snd] in E.
  destruct (render_all d (upd r0 n' heap) refs centers widths) as [[h2 gs2]|] eqn:Er; [|discriminate].
  cbn [bind fst snd] in E. injection E as <- <-.
  refine (IH _ _ _ _ _ r n lo hi Er _ A B).
  destruct (Nat.eq_dec r r0) as [->|NE].
  - rewrite nth_error_upd_eq by (apply nth_error_Some; congruence). rewrite En in H. injection H as ->.
    f_equal. exact (norm_call_set n g0 n' g1 lo hi A B Ec).
  - rewrite nth_error_upd_neq by congruence. exact H.
Qed.
(** Objects that are not used stay as they are. *)
Lemma render_all_unused d : forall refs heap centers widths heap' gs r,
  render_all d heap refs centers widths = Ok (heap', gs) ->
  ~ In r (firstn (length gs) refs) -> nth_error heap' r = nth_error heap r.
Proof.
  induction refs as [|r0 refs IH]; intros heap centers widths heap' gs r E H.
  { cbn [render_all] in E. injection E as <- <-. reflexivity. }
  destruct centers as [|c centers]; cbn [render_all] in E; [injection E as <- <-; reflexivity|].
  destruct widths as [|w widths]; [injection E as <- <-; reflexivity|].
  destruct (render_voxels_to_array d c w) as [g0|]; [|discriminate]. cbn [bind] in E.
  destruct (nth_error heap r0) as [n0|] eqn:En; [|discriminate].
  destruct (norm_call n0 g0) as [[n' g1]|] eqn:Ec; [|discriminate]. cbn [bind fst snd] in E.
  destruct (render_all d (upd r0 n' heap) refs centers widths) as [[h2 gs2]|] eqn:Er; [|discriminate].
  cbn [bind fst snd] in E. injection E as <- <-. cbn [length firstn In] in H.
  rewrite (IH _ _ _ _ _ r Er) by (intros Q; apply H; right; exact Q).
  apply nth_error_upd_neq. intros ->. apply H. left. reflexivity.
Qed.

Lemma render_all_limits d : vx d = vy d -> (0 < vx d)%nat ->
  forall refs heap centers widths heap' gs, Forall (fun w => w <> 0) widths ->
  render_all d heap refs centers widths = Ok (heap', gs) ->
  length gs = Nat.min (length refs) (Nat.min (length centers) (length widths)) /\
  forall k g, nth_error gs k = Some g ->
    exists c w clip lo hi, nth_error centers k = Some c /\ nth_error widths k = Some w /\
      limits d heap refs centers widths k clip lo hi /\
      (exists r, nth_error refs k = Some r /\ nth_error heap' r = Some (mknorm (Some lo) (Some hi) clip)) /\ rows g = vx d /\ cols g = vy d /\
      forall i j, columns_of d i j -> scaled clip lo hi (light d c w i j) (at2 g j i).
Proof.
  intros Hs Hp. induction refs as [|r refs IH]; intros heap centers widths heap' gs HW E.
  { cbn [render_all] in E. injection E as <- <-. split; [reflexivity|]. intros [|k] g H; discriminate H. }
  destruct centers as [|c centers]; cbn [render_all] in E.
  { injection E as <- <-. split; [reflexivity|]. intros [|k] g H; discriminate H. }
  destruct widths as [|w widths].
  { injection E as <- <-. split; [reflexivity|]. intros [|k] g H; discriminate H. }
  inversion HW as [|? ? Hw HW']; subst.
  destruct (render_pixels d c w Hw Hs) as (g0 & E0 & S0). fold (shows d c w g0) in S0.
  rewrite E0 in E. cbn [bind] in E. destruct (nth_error heap r) as [n|] eqn:En; [|discriminate].
  destruct (norm_call n g0) as [[n' g1]|] eqn:Ec; [|discriminate]. cbn [bind fst snd] in E.
  destruct (render_all d (upd r n' heap) refs centers widths) as [[h2 gs2]|] eqn:Er; [|discriminate].
  cbn [bind fst snd] in E. injection E as <- <-.
  destruct (norm_call_scaled d c w g0 n n' g1 Hs Hp S0 Ec) as (lo & hi & M1 & M2 & M3 & L1 & L2 & R1 & C1 & A1).
  destruct (IH _ _ _ _ _ HW' Er) as [LEN IH2]. split; [cbn [length Nat.min]; rewrite LEN; reflexivity|].
  intros [|k] g Hg.
  - cbn in Hg. injection Hg as <-. exists c, w, (nclip n), lo, hi. split; [reflexivity|]. split; [reflexivity|].
    split.
    { exists r, n, 0%nat, c, w. repeat split; try reflexivity; try assumption. intros j Hj. lia. }
    split; [|auto]. exists r. split; [reflexivity|].
    assert (n' = mknorm (Some lo) (Some hi) (nclip n)) as -> by (destruct n'; cbn in M1, M2, M3; subst; reflexivity).
    refine (render_all_set _ _ _ _ _ _ _ r (mknorm (Some lo) (Some hi) (nclip n)) lo hi Er _ eq_refl eq_refl).
    apply nth_error_upd_eq. apply nth_error_Some. congruence.
  - cbn in Hg. destruct (IH2 k g Hg) as (c' & w' & clip & lo' & hi' & Ek & Ew & (r' & n2 & k0 & c0 & w0 & F1 & F2 & F3 & F4 & F5 & F6 & F7 & F8) & REST).
    exists c', w', clip, lo', hi'. split; [exact Ek|]. split; [exact Ew|]. split; [|exact REST].
    assert (Hr : (r < length heap)%nat) by (apply nth_error_Some; congruence).
    destruct (Nat.eq_dec r' r) as [->|NE].
    + rewrite nth_error_upd_eq in F2 by exact Hr. injection F2 as <-.
      rewrite M1 in F7. rewrite M2 in F8.
      assert (lo' = lo) as -> by (destruct F7 as [F7|[F7 _]]; congruence).
      assert (hi' = hi) as -> by (destruct F8 as [F8|[F8 _]]; congruence).
      exists r, n, 0%nat, c, w. split; [exact F1|]. split; [exact En|]. split; [congruence|].
      split; [|repeat split; assumption]. split; [lia|]. split; [symmetry; exact F1|]. intros j Hj. lia.
    + rewrite nth_error_upd_neq in F2 by (intros Q; apply NE; congruence).
      exists r', n2, (S k0), c0, w0. split; [exact F1|]. split; [exact F2|]. split; [exact F3|].
      split; [|repeat split; assumption]. destruct F4 as (G1 & G2 & G3). split; [lia|]. split; [exact G2|].
      intros [|j] Hj; cbn [nth_error].
      * rewrite F1. congruence.
      * apply G3. lia.
Qed.

Lemma dark_bright d c w a b : darkest d c w a -> brightest d c w b -> a <= b.
Proof. intros [_ A] [(i & j & C & <-) _]. apply A. exact C. Qed.
Lemma norm_call_ok d c w g n : vx d = vy d -> (0 < vx d)%nat -> shows d c w g -> sane n ->
  exists n' g', norm_call n g = Ok (n', g') /\ sane n'.
Proof.
  intros Hs Hp S N. destruct (least_darkest d c w g Hs Hp S) as (a & Ea & Da).
  destruct (greatest_brightest d c w g Hs Hp S) as (b & Eb & Db).
  pose proof (dark_bright _ _ _ _ _ Da Db) as AB.
  unfold sane in N. unfold norm_call. rewrite Ea, Eb.
  destruct (nmin n) as [u|], (nmax n) as [v|]; try destruct N; cbn beta iota zeta;
    (destruct (Req_EM_T _ _); [|destruct (Rlt_dec _ _); [lra|]]); do 2 eexists; (split; [reflexivity|]); unfold sane; cbn; lra.
Qed.
Lemma Forall_upd {A} (P : A -> Prop) i x l : P x -> Forall P l -> Forall P (upd i x l).
Proof.
  intros Hx H. revert i. induction H as [|y l Hy Hl IH]; intros [|i]; cbn; try constructor; auto.
Qed.
Lemma render_all_ok d : vx d = vy d -> (0 < vx d)%nat ->
  forall refs heap centers widths, Forall (fun w => w <> 0) widths -> Forall sane heap ->
  Forall (fun r => (r < length heap)%nat) refs ->
  exists heap' gs, render_all d heap refs centers widths = Ok (heap', gs).
Proof.
  intros Hs Hp. induction refs as [|r refs IH]; intros heap centers widths HW HH HR; [do 2 eexists; reflexivity|].
  destruct centers as [|c centers]; [do 2 eexists; reflexivity|].
  destruct widths as [|w widths]; [do 2 eexists; reflexivity|].
  cbn [render_all]. inversion HW as [|? ? Hw HW']; subst. inversion HR as [|? ? Hr HR']; subst.
  destruct (render_pixels d c w Hw Hs) as (g0 & E0 & S0). fold (shows d c w g0) in S0. rewrite E0. cbn [bind].
  destruct (nth_error heap r) as [n|] eqn:En; [|apply nth_error_None in En; lia].
  destruct (norm_call_ok d c w g0 n Hs Hp S0) as (n' & g1 & E1 & N1);
    [apply (proj1 (Forall_forall sane heap) HH); apply nth_error_In with r; exact En|].
  rewrite E1. cbn [bind fst snd].
  destruct (IH (upd r n' heap) centers widths HW') as (h2 & gs & E2).
  - apply Forall_upd; assumption.
  - apply Forall_forall. intros x Hx. rewrite upd_length. apply (proj1 (Forall_forall _ refs) HR' x Hx).
  - rewrite E2. cbn [bind fst snd]. do 2 eexists. reflexivity.
Qed.

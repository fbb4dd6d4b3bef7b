(** Deposition on folded grids: C44, C61. *)
From Coq Require Import List ZArith Reals Bool Lra Lia Psatz Permutation.
From Verif Require Import Base BaseLemmas VisModel VisSpec VisSumProofs VisProofs HsmlModel PowerModel.
Import ListNotations.
Open Scope R_scope.

(** * Specification *)

(** Cells of size [b / n] tile the axis; a periodic grid of [n] of them has length [b]. *)
Definition grid_index (n : Z) (b x : R) : Z := (floor (IZR n * (x / b)) mod n)%Z.
Definition grid_cell (n : Z) (bx by_ bz : R) (p : part) : cell :=
  [grid_index n bx (p_x p); grid_index n by_ (p_y p); grid_index n bz (p_z p)].
Definition mass_in (c : cell) (cell_of : part -> cell) (ps : list part) : R :=
  sumR (map (fun p => if list_eq_dec Z.eq_dec (cell_of p) c then p_m p else 0) ps).
Definition total_mass (ps : list part) : R := sumR (map p_m ps).
(** [q] is [p] moved by whole boxes. *)
Definition moved (bx by_ bz : R) (p q : part) : Prop :=
  p_m q = p_m p /\ exists a b c, p_x q = p_x p + IZR a * bx /\ p_y q = p_y p + IZR b * by_
                                 /\ p_z q = p_z p + IZR c * bz.

(** * C44 *)

Lemma deposit_index_grid : forall n fold box x,
  (1 <= n)%Z -> 0 < fold -> 0 < box ->
  deposit_index n fold box x = grid_index n (box / fold) x.
Proof.
  intros n fold box x Hn Hf Hb. unfold deposit_index, grid_index.
  set (b := box / fold).
  assert (Hb0 : 0 < b) by (unfold b; apply Rmult_lt_0_compat; [lra|apply Rinv_0_lt_compat; lra]).
  clearbody b.
  assert (Hn1 : 1 <= IZR n) by (apply (IZR_le 1); lia).
  assert (E : rmod x b * (1 / b) * IZR n = IZR n * (x / b) - IZR n * IZR (floor (x / b))).
  { unfold rmod. field. lra. }
  pose proof (floor_spec (x / b)) as F. set (k := floor (x / b)) in *. set (q := x / b) in *. clearbody q k.
  rewrite E.
  assert (R : 0 <= IZR n * q - IZR n * IZR k < IZR n) by nra.
  rewrite trunc_floor by lra.
  replace (IZR n * q - IZR n * IZR k) with (IZR n * q + IZR (- n * k)).
  2:{ rewrite mult_IZR, opp_IZR. ring. }
  rewrite floor_add.
  pose proof (floor_spec (IZR n * q)) as G. set (g := floor (IZR n * q)) in *.
  apply (Z.mod_unique_pos g n k).
  - assert (0 <= floor (IZR n * q - IZR n * IZR k))%Z by (apply floor_le; lra).
    assert (floor (IZR n * q - IZR n * IZR k) < n)%Z by (apply floor_lt; lra).
    assert (floor (IZR n * q - IZR n * IZR k) = g + - n * k)%Z.
    { unfold g. rewrite <- floor_add. f_equal. rewrite mult_IZR, opp_IZR. ring. }
    lia.
  - ring.
Qed.

Lemma grid_index_range : forall n b x, (1 <= n)%Z -> (0 <= grid_index n b x < n)%Z.
Proof. intros. unfold grid_index. apply Z.mod_pos_bound. lia. Qed.

Lemma grid_cell_bounds : forall n bx by_ bz p, (1 <= n)%Z -> in_bounds (cube n) (grid_cell n bx by_ bz p) = true.
Proof.
  intros n bx by_ bz p Hn. unfold grid_cell, cube. cbn [in_bounds].
  pose proof (grid_index_range n bx (p_x p) Hn). pose proof (grid_index_range n by_ (p_y p) Hn).
  pose proof (grid_index_range n bz (p_z p) Hn).
  rewrite !(proj2 (Z.leb_le _ _)), !(proj2 (Z.ltb_lt _ _)) by lia. reflexivity.
Qed.

(** C44: a particle is deposited in exactly one cell, inside the grid. *)
Theorem C44_one_cell : forall n fold bx by_ bz p,
  (1 <= n)%Z -> 0 < fold -> 0 < bx -> 0 < by_ -> 0 < bz ->
  deposit_part n fold bx by_ bz p
  = [(grid_cell n (bx / fold) (by_ / fold) (bz / fold) p, p_m p * (IZR n ^ 3 * fold ^ 3))]
  /\ in_bounds (cube n) (grid_cell n (bx / fold) (by_ / fold) (bz / fold) p) = true.
Proof.
  intros n fold bx by_ bz p Hn Hf Hx Hy Hz. split; [|apply grid_cell_bounds; exact Hn].
  unfold deposit_part, grid_cell. rewrite !deposit_index_grid by assumption.
  do 2 f_equal. ring.
Qed.

Lemma deposit_ok : forall n fold bx by_ bz ps,
  (1 <= n)%Z -> 0 < fold -> 0 < bx -> 0 < by_ -> 0 < bz ->
  forall p, In p ps -> ok_writes (cube n) (deposit_part n fold bx by_ bz p).
Proof.
  intros n fold bx by_ bz ps Hn Hf Hx Hy Hz p _.
  destruct (C44_one_cell n fold bx by_ bz p Hn Hf Hx Hy Hz) as [-> H]. apply ok_one. exact H.
Qed.

(** C44: a cell holds the mass of the particles in it, times the normalisation. *)
Theorem C44_values : forall n fold bx by_ bz ps,
  (1 <= n)%Z -> 0 < fold -> 0 < bx -> 0 < by_ -> 0 < bz ->
  exists img, deposit n fold bx by_ bz ps = Ok img
    /\ forall c, img c = mass_in c (grid_cell n (bx / fold) (by_ / fold) (bz / fold)) ps
                         * (IZR n ^ 3 * fold ^ 3).
Proof.
  intros n fold bx by_ bz ps Hn Hf Hx Hy Hz.
  destruct (render_spec (cube n) (flat_map (deposit_part n fold bx by_ bz) ps)) as (img & E & V).
  { apply ok_flat_map. apply deposit_ok; assumption. }
  exists img. split; [exact E|]. intro c. rewrite V, value_at_flat_map.
  unfold mass_in. rewrite <- sumR_scal_r. apply sumR_ext. intros p _.
  rewrite (proj1 (C44_one_cell n fold bx by_ bz p Hn Hf Hx Hy Hz)), value_at_one.
  unfold cell_eqb. destruct (list_eq_dec Z.eq_dec _ c); ring.
Qed.

Lemma pick3 : forall n c v, in_bounds (cube n) c = true ->
  total3 n (fun c' => if list_eq_dec Z.eq_dec c c' then v else 0) = v.
Proof.
  intros n c v H.
  destruct c as [|i [|j [|k [|? ?]]]]; unfold cube in H; cbn [in_bounds] in H;
    try (rewrite ?andb_false_r in H; discriminate H).
  repeat rewrite ?andb_true_iff in H.
  rewrite !Z.leb_le, !Z.ltb_lt in H. unfold total3.
  rewrite (sumR_one _ (zrange 0 n) i); [|apply NoDup_zrange|apply In_zrange; lia|].
  - rewrite (sumR_one _ (zrange 0 n) j); [|apply NoDup_zrange|apply In_zrange; lia|].
    + rewrite (sumR_one _ (zrange 0 n) k); [|apply NoDup_zrange|apply In_zrange; lia|].
      * destruct (list_eq_dec Z.eq_dec [i; j; k] [i; j; k]); [reflexivity|contradiction].
      * intros b _ Hb. destruct (list_eq_dec _ _ _) as [E|_]; [injection E as E; congruence|reflexivity].
    + intros b _ Hb. apply sumR_zero. intros d _.
      destruct (list_eq_dec _ _ _) as [E|_]; [injection E as E; congruence|reflexivity].
  - intros b _ Hb. apply sumR_zero. intros d _. apply sumR_zero. intros e _.
    destruct (list_eq_dec _ _ _) as [E|_]; [injection E as E; congruence|reflexivity].
Qed.

Lemma total3_plus : forall n f g, total3 n (fun c => f c + g c) = total3 n f + total3 n g.
Proof.
  intros n f g. unfold total3. rewrite <- sumR_plus. apply sumR_ext. intros i _.
  rewrite <- sumR_plus. apply sumR_ext. intros j _. rewrite <- sumR_plus. reflexivity.
Qed.

Lemma total3_scal : forall n f k, total3 n (fun c => f c * k) = total3 n f * k.
Proof.
  intros n f k. unfold total3. rewrite <- sumR_scal_r. apply sumR_ext. intros i _.
  rewrite <- sumR_scal_r. apply sumR_ext. intros j _. rewrite <- sumR_scal_r. reflexivity.
Qed.

Lemma total3_ext : forall n f g, (forall c, f c = g c) -> total3 n f = total3 n g.
Proof.
  intros n f g H. unfold total3. apply sumR_ext. intros i _. apply sumR_ext. intros j _.
  apply sumR_ext. intros k _. apply H.
Qed.

(** C44: the total is the total mass times the normalisation: nothing is lost. *)
Theorem C44_total : forall n fold bx by_ bz ps img,
  (1 <= n)%Z -> 0 < fold -> 0 < bx -> 0 < by_ -> 0 < bz ->
  deposit n fold bx by_ bz ps = Ok img ->
  total3 n img = total_mass ps * (IZR n ^ 3 * fold ^ 3).
Proof.
  intros n fold bx by_ bz ps img Hn Hf Hx Hy Hz E.
  destruct (C44_values n fold bx by_ bz ps Hn Hf Hx Hy Hz) as (img' & E' & V).
  rewrite E in E'. injection E' as <-.
  rewrite (total3_ext n img _ V), total3_scal. f_equal.
  clear E V. unfold mass_in, total_mass. induction ps as [|p t IH].
  - cbn [map]. rewrite sumR_nil. unfold total3. apply sumR_zero. intros. apply sumR_zero. intros.
    apply sumR_zero. reflexivity.
  - cbn [map]. rewrite sumR_cons, <- IH.
    pose proof (pick3 n (grid_cell n (bx / fold) (by_ / fold) (bz / fold) p) (p_m p)
                      (grid_cell_bounds n _ _ _ p Hn)) as P.
    refine (eq_trans _ (f_equal2 Rplus P eq_refl)).
    rewrite <- total3_plus. apply total3_ext. intro c. apply sumR_cons.
Qed.

Lemma grid_index_moved : forall n b x k, (1 <= n)%Z -> 0 < b -> grid_index n b (x + IZR k * b) = grid_index n b x.
Proof.
  intros n b x k Hn Hb. unfold grid_index.
  replace (IZR n * ((x + IZR k * b) / b)) with (IZR n * (x / b) + IZR (k * n)).
  2:{ rewrite mult_IZR. field. lra. }
  rewrite floor_add. apply Z.mod_add. lia.
Qed.

(** C44: moving particles by whole folded boxes changes nothing. *)
Theorem C44_translation : forall n fold bx by_ bz ps qs,
  (1 <= n)%Z -> 0 < fold -> 0 < bx -> 0 < by_ -> 0 < bz ->
  Forall2 (moved (bx / fold) (by_ / fold) (bz / fold)) ps qs ->
  deposit n fold bx by_ bz qs = deposit n fold bx by_ bz ps.
Proof.
  intros n fold bx by_ bz ps qs Hn Hf Hx Hy Hz H. unfold deposit. f_equal.
  assert (B : forall box, 0 < box -> 0 < box / fold).
  { intros box Hb. apply Rmult_lt_0_compat; [lra|apply Rinv_0_lt_compat; lra]. }
  induction H as [|p q ps qs (Hm & a & b & c & Ex & Ey & Ez) _ IH]; [reflexivity|].
  cbn [flat_map]. rewrite IH. f_equal.
  rewrite (proj1 (C44_one_cell n fold bx by_ bz q Hn Hf Hx Hy Hz)),
          (proj1 (C44_one_cell n fold bx by_ bz p Hn Hf Hx Hy Hz)).
  unfold grid_cell. rewrite Ex, Ey, Ez, Hm, !grid_index_moved by auto. reflexivity.
Qed.

(** C44: the threads together do what one does, in any order. *)
Theorem C44_parallel : forall n fold bx by_ bz ps threads order,
  (1 <= n)%Z -> 0 < fold -> 0 < bx -> 0 < by_ -> 0 < bz ->
  (1 <= threads)%Z -> Permutation order (zrange 0 threads) ->
  exists img img', deposit n fold bx by_ bz ps = Ok img
    /\ deposit_parallel n fold bx by_ bz ps threads order = Ok img'
    /\ same_image (cube n) img img'.
Proof.
  intros n fold bx by_ bz ps threads order Hn Hf Hx Hy Hz Ht Ho.
  apply parallel_same; try assumption. apply deposit_ok; assumption.
Qed.

(** Folding [f] times adds up the [f^3] cells that fall on the same place: an index of the
    folded grid is the index in a grid of [f n] cells over the whole box, modulo [n]. *)
Theorem C44_folding : forall n f box x,
  (1 <= n)%Z -> (1 <= f)%Z -> 0 < box ->
  deposit_index n (IZR f) box x = (grid_index (f * n) box x mod n)%Z.
Proof.
  intros n f box x Hn Hf Hb.
  assert (Hf0 : 0 < IZR f) by (apply (IZR_lt 0); lia).
  rewrite deposit_index_grid by assumption. unfold grid_index.
  rewrite mult_IZR.
  replace (IZR n * (x / (box / IZR f))) with (IZR f * IZR n * (x / box)) by (field; lra).
  set (g := floor _). rewrite (Z.mul_comm f n).
  rewrite Z.rem_mul_r by lia. rewrite (Z.mul_comm n), Z.mod_add by lia. symmetry. apply Z.mod_mod. lia.
Qed.

(** * C61 *)

Lemma power_pos : forall k, 0 < powerRZ 2 k.
Proof. intro. apply powerRZ_lt. lra. Qed.

(** C61: the density, summed times the volume of a cell of the folded grid, is the mass. *)
Theorem C61_density : forall d n folding bx by_ bz,
  (1 <= n)%Z -> box d = (bx, by_, bz) -> 0 < bx -> 0 < by_ -> 0 < bz ->
  (if positions_comoving d then compatible_comoving d else compatible_physical d) = true ->
  box_units d = position_units d ->
  exists img, render_to_deposit d n folding = Ok img
    /\ let side := fun b => b / powerRZ 2 folding / IZR n in
       total3 n img * (side bx * side by_ * side bz) = total_mass (particles d).
Proof.
  intros d n folding bx by_ bz Hn Hb Hx Hy Hz Hc Hu. unfold render_to_deposit.
  assert (positions_comoving d && negb (compatible_comoving d) = false) as ->.
  { destruct (positions_comoving d); [rewrite Hc|]; reflexivity. }
  assert (negb (positions_comoving d) && negb (compatible_physical d) = false) as ->.
  { destruct (positions_comoving d); [|rewrite Hc]; reflexivity. }
  rewrite Hu, Z.eqb_refl, Hb. cbn [negb].
  destruct (C44_values n (powerRZ 2 folding) bx by_ bz (particles d) Hn (power_pos _) Hx Hy Hz) as (img & E & _).
  rewrite E. cbn [bind]. eexists. split; [reflexivity|]. cbv zeta.
  rewrite total3_scal, (C44_total n (powerRZ 2 folding) bx by_ bz (particles d) img Hn (power_pos _) Hx Hy Hz E).
  pose proof (power_pos folding). assert (1 <= IZR n) by (apply (IZR_le 1); lia). field. repeat split; lra.
Qed.

(** Quantities of the other frame and other units are refused. *)
Theorem C61_checks : forall d n folding,
  (positions_comoving d = true -> compatible_comoving d = false ->
   render_to_deposit d n folding = Err AttributeError)
  /\ (positions_comoving d = false -> compatible_physical d = false ->
      render_to_deposit d n folding = Err AttributeError)
  /\ (box_units d <> position_units d -> render_to_deposit d n folding = Err AttributeError).
Proof.
  intros d n folding. unfold render_to_deposit. split; [|split].
  - intros -> ->. reflexivity.
  - intros -> ->. reflexivity.
  - intro H. destruct (_ && _); [reflexivity|]. destruct (_ && _); [reflexivity|].
    destruct (Z.eqb_spec (box_units d) (position_units d)); [contradiction|]. reflexivity.
Qed.

(** The same snapshot in physical coordinates: lengths times the scale factor. *)
Definition rescale (a : R) (p : part) : part :=
  mkpart (a * p_x p) (a * p_y p) (a * p_z p) (p_m p) (a * p_h p).

(** Changing positions and box together keeps all cells. *)
Theorem C61_scale_free : forall n fold bx by_ bz a ps,
  (1 <= n)%Z -> 0 < fold -> 0 < bx -> 0 < by_ -> 0 < bz -> 0 < a ->
  deposit n fold (a * bx) (a * by_) (a * bz) (map (rescale a) ps) = deposit n fold bx by_ bz ps.
Proof.
  intros n fold bx by_ bz a ps Hn Hf Hx Hy Hz Ha. unfold deposit. f_equal.
  assert (I : forall b x, 0 < b -> grid_index n (a * b / fold) (a * x) = grid_index n (b / fold) x).
  { intros b x Hb. unfold grid_index. do 3 f_equal. field. repeat split; lra. }
  induction ps as [|p t IH]; [reflexivity|]. cbn [map flat_map]. rewrite IH. f_equal.
  rewrite (proj1 (C44_one_cell n fold _ _ _ (rescale a p) Hn Hf (Rmult_lt_0_compat _ _ Ha Hx)
                   (Rmult_lt_0_compat _ _ Ha Hy) (Rmult_lt_0_compat _ _ Ha Hz))),
          (proj1 (C44_one_cell n fold bx by_ bz p Hn Hf Hx Hy Hz)).
  unfold grid_cell, rescale. cbn [p_x p_y p_z p_m]. rewrite !I by assumption. reflexivity.
Qed.

(** But [render_to_deposit] accepts physical positions and always uses the comoving box of
    the metadata: at scale factor 1/2 a particle in the last cell goes into another one. *)
Theorem C61_physical_positions_refuted :
  exists d d' img img',
    particles d' = map (rescale (1 / 2)) (particles d) /\ box d' = box d
    /\ positions_comoving d = true /\ positions_comoving d' = false
    /\ render_to_deposit d 2 0 = Ok img /\ render_to_deposit d' 2 0 = Ok img'
    /\ img [1; 1; 1]%Z = 8 /\ img' [1; 1; 1]%Z = 0 /\ img' [0; 0; 0]%Z = 8.
Proof.
  set (p := mkpart (3 / 4) (3 / 4) (3 / 4) 1 1).
  set (d := mkinput true true true 0 0 (1, 1, 1) [p]).
  set (d' := mkinput false true true 0 0 (1, 1, 1) [rescale (1 / 2) p]).
  assert (F1 : grid_index 2 (1 / 1) (3 / 4) = 1%Z).
  { unfold grid_index. rewrite (floor_unique _ 1) by lra. reflexivity. }
  assert (F0 : grid_index 2 (1 / 1) (1 / 2 * (3 / 4)) = 0%Z).
  { unfold grid_index. rewrite (floor_unique _ 0) by lra. reflexivity. }
  assert (R : forall q, exists img,
     render_to_deposit (mkinput true true true 0 0 (1, 1, 1) [q]) 2 0 = Ok img
     /\ render_to_deposit (mkinput false true true 0 0 (1, 1, 1) [q]) 2 0 = Ok img
     /\ forall c, img c = mass_in c (grid_cell 2 (1 / 1) (1 / 1) (1 / 1)) [q] * 8).
  { intro q. destruct (C44_values 2 1 1 1 1 [q] ltac:(lia) ltac:(lra) ltac:(lra) ltac:(lra) ltac:(lra))
      as (img & E & V).
    unfold render_to_deposit. cbn [powerRZ positions_comoving compatible_comoving compatible_physical
      box_units position_units box particles andb negb Z.eqb]. rewrite E. cbn [bind].
    eexists. split; [reflexivity|]. split; [reflexivity|]. intro c. cbv beta. rewrite V.
    field. }
  destruct (R p) as (img & E & _ & V). destruct (R (rescale (1 / 2) p)) as (img' & _ & E' & V').
  exists d, d', img, img'.
  split; [reflexivity|]. split; [reflexivity|]. split; [reflexivity|]. split; [reflexivity|].
  split; [exact E|]. split; [exact E'|].
  rewrite V, !V'. unfold mass_in. cbn [map]. rewrite !sumR_cons, !sumR_nil.
  unfold grid_cell, rescale, p. cbn [p_x p_y p_z p_m]. rewrite F1, F0.
  destruct (list_eq_dec Z.eq_dec [1; 1; 1]%Z [1; 1; 1]%Z); [|contradiction].
  destruct (list_eq_dec Z.eq_dec [0; 0; 0]%Z [1; 1; 1]%Z); [discriminate|].
  destruct (list_eq_dec Z.eq_dec [0; 0; 0]%Z [0; 0; 0]%Z); [|contradiction].
  repeat split; ring.
Qed.

(** * Concrete cases *)

Example moved_case : moved (1 / 2) (1 / 2) (1 / 2) (mkpart (1 / 8) 0 0 1 1) (mkpart (- (3 / 8)) 1 0 1 1).
Proof. split; [reflexivity|]. exists (-1)%Z, 2%Z, 0%Z. cbn [p_x p_y p_z]. repeat split; lra. Qed.

(** Negative positions fold from the other side. *)
Example negative_case : grid_index 4 1 (- (1 / 8)) = 3%Z.
Proof. unfold grid_index. rewrite (floor_unique _ (-1)) by lra. reflexivity. Qed.

Print Assumptions C44_one_cell.
Print Assumptions C44_values.
Print Assumptions C44_total.
Print Assumptions C44_translation.
Print Assumptions C44_parallel.
Print Assumptions C44_folding.
Print Assumptions C61_density.
Print Assumptions C61_checks.
Print Assumptions C61_scale_free.
Print Assumptions C61_physical_positions_refuted.

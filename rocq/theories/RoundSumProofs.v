(** C115: images that are added up with rounded numbers. *)
From Coq Require Import List ZArith QArith Lia Lra Bool Floats.SpecFloat Reals Permutation Qreals.
From Flocq Require Import Core.
From Verif Require Import Base BaseLemmas RoundModel RoundFloatModel RoundTripProofs RoundSumModel RoundSumSpec.
From Verif Require VisModel VisSpec VisProofs VisSumProofs VisValueProofs RoundExactTheorems RoundFloatTheorems.
Import ListNotations.
Open Scope R_scope.

#[local] Instance prec53 : Prec_gt_0 53. Proof. reflexivity. Qed.
#[local] Instance prec24 : Prec_gt_0 24. Proof. reflexivity. Qed.
Notation fmt p := (generic_format radix2 (FLX_exp p)).

Lemma zero_rounded : zero rounded = 0.
Proof. unfold zero. cbn [rounded lit]. replace (Q2R 0) with 0 by (unfold Q2R; cbn; lra). apply rn_zero. Qed.

(** The two types of images with the size of their roundings: a sum is rounded to 53 bits and then stored. *)
Definition eps (p : Z) : R := bpow radix2 (- p).
Inductive stored : (R -> R) -> R -> Prop :=
| stored_single : stored (single rounded) (eps 24 + eps 53 + eps 24 * eps 53)
| stored_double : stored (double rounded) (eps 53).

Lemma eps_pos p : 0 < eps p. Proof. apply bpow_gt_0. Qed.
Lemma rnd_small p x : (1 < p)%Z -> Rabs (rnd p x - x) <= Rabs x * eps p.
Proof. intro P. apply rn_error. exact P. Qed.

Section Store.
Variables (st : R -> R) (u : R).
Hypothesis St : stored st u.

Lemma u_pos : 0 <= u.
Proof. pose proof (eps_pos 24). pose proof (eps_pos 53). destruct St; nra. Qed.
Lemma step_error x : Rabs (st (rnd 53 x) - x) <= u * Rabs x.
Proof.
  destruct St; cbn [rounded single double].
  - pose proof (rnd_small 53 x ltac:(lia)) as A. pose proof (rnd_small 24 (rnd 53 x) ltac:(lia)) as B.
    pose proof (eps_pos 24). pose proof (eps_pos 53).
    pose proof (Rabs_triang (rnd 24 (rnd 53 x) - rnd 53 x) (rnd 53 x - x)) as T.
    replace (rnd 24 (rnd 53 x) - rnd 53 x + (rnd 53 x - x)) with (rnd 24 (rnd 53 x) - x) in T by ring.
    pose proof (Rabs_triang (rnd 53 x - x) x) as T'. replace (rnd 53 x - x + x) with (rnd 53 x) in T' by ring.
    pose proof (Rabs_pos (rnd 53 x)). nra.
  - pose proof (rnd_small 53 x ltac:(lia)). lra.
Qed.
Lemma step_le x y : x <= y -> st (rnd 53 x) <= st (rnd 53 y).
Proof.
  intro H. destruct St; cbn [rounded single double]; [apply (rn_le 24 ltac:(lia))|]; apply (rn_le 53 ltac:(lia)); exact H.
Qed.
Lemma step_zero : st (rnd 53 0) = 0.
Proof. destruct St; cbn [rounded single double]; rewrite (rn_zero 53); [apply rn_zero|reflexivity]. Qed.
(** What has been stored is stored unchanged. *)
Lemma step_again x : st (rnd 53 (st (rnd 53 x))) = st (rnd 53 x).
Proof.
  destruct St; cbn [rounded single double].
  - rewrite (rn_id 53).
    + apply rn_id. apply rn_format. lia.
    + apply generic_inclusion_mag with (FLX_exp 24); [intros _; unfold FLX_exp; lia|]. apply rn_format. lia.
  - apply rn_id. apply rn_format. lia.
Qed.

Lemma bump_value img w c : bump rounded st img w c
  = if list_eq_dec Z.eq_dec (fst w) c then st (rnd 53 (img c + snd w)) else img c.
Proof. reflexivity. Qed.

(** * One image *)

Lemma powers k m : (k <= m)%nat -> 1 <= (1 + u) ^ k <= (1 + u) ^ m.
Proof.
  intro H. pose proof u_pos. split; [apply pow_R1_Rle; lra|]. apply Rle_pow; [lra|exact H].
Qed.

Lemma closer k m size x y : (k <= m)%nat -> 0 <= size -> within_roundings u k size x y -> within_roundings u m size x y.
Proof.
  unfold within_roundings. intros H S W. eapply Rle_trans; [exact W|]. apply Rmult_le_compat_r; [exact S|].
  pose proof (powers k m H). lra.
Qed.

(** Adding two numbers that are known up to [k] roundings. *)
Lemma add_close k x y size x' y' size' : Rabs y <= size -> Rabs y' <= size' ->
  within_roundings u k size x y -> within_roundings u k size' x' y' ->
  within_roundings u (S k) (size + size') (st (rnd 53 (x + x'))) (y + y').
Proof.
  unfold within_roundings. intros S S' W W'. pose proof u_pos as U. pose proof (step_error (x + x')) as E.
  pose proof (powers k k (le_n k)) as (K & _). cbn [pow]. set (q := (1 + u) ^ k) in *.
  pose proof (Rabs_triang (st (rnd 53 (x + x')) - (x + x')) (x - y + (x' - y'))) as T.
  replace (st (rnd 53 (x + x')) - (x + x') + (x - y + (x' - y'))) with (st (rnd 53 (x + x')) - (y + y')) in T by ring.
  pose proof (Rabs_triang (x - y) (x' - y')) as T1. pose proof (Rabs_triang (x - y + (x' - y')) (y + y')) as T2.
  replace (x - y + (x' - y') + (y + y')) with (x + x') in T2 by ring. pose proof (Rabs_triang y y') as T3.
  assert (B : Rabs (x - y + (x' - y')) <= (q - 1) * (size + size')) by lra.
  assert (Z0 : 0 <= size + size') by (pose proof (Rabs_pos y); pose proof (Rabs_pos y'); lra).
  assert (C : Rabs (x + x') <= q * (size + size')) by lra.
  apply Rle_trans with (u * (q * (size + size')) + (q - 1) * (size + size')); [|lra].
  eapply Rle_trans; [exact T|]. apply Rplus_le_compat; [|exact B]. eapply Rle_trans; [exact E|]. apply Rmult_le_compat_l; assumption.
Qed.

Lemma summed_abs c ws : Rabs (summed (fun v => v) c ws) <= summed Rabs c ws.
Proof.
  induction ws as [|[d v] t IH]; cbn [summed]; [rewrite Rabs_R0; lra|].
  eapply Rle_trans; [apply Rabs_triang|]. destruct (list_eq_dec Z.eq_dec d c); [lra|]. rewrite Rabs_R0. lra.
Qed.
Lemma summed_nonneg c ws : 0 <= summed Rabs c ws.
Proof. pose proof (summed_abs c ws). pose proof (Rabs_pos (summed (fun v => v) c ws)). lra. Qed.
Lemma summed_app g c a b : summed g c (a ++ b) = summed g c a + summed g c b.
Proof. induction a as [|[d v] t IH]; cbn [app summed]; [lra|]. rewrite IH. lra. Qed.
Lemma times_app c a b : times c (a ++ b) = (times c a + times c b)%nat.
Proof. induction a as [|[d v] t IH]; cbn [app times]; [reflexivity|]. rewrite IH. destruct (list_eq_dec Z.eq_dec d c); reflexivity. Qed.

Lemma same_value k x : within_roundings u k 0 x x.
Proof. unfold within_roundings. replace (x - x) with 0 by ring. rewrite Rabs_R0. lra. Qed.
Lemma exact_value k x : within_roundings u k (Rabs x) x x.
Proof.
  unfold within_roundings. replace (x - x) with 0 by ring. rewrite Rabs_R0. pose proof (powers k k (le_n k)).
  apply Rmult_le_pos; [lra|apply Rabs_pos].
Qed.

Lemma draw_snoc ws w : draw rounded st (ws ++ [w]) = bump rounded st (draw rounded st ws) w.
Proof. unfold draw. rewrite fold_left_app. reflexivity. Qed.

Lemma pixel_close ws c : within_roundings u (times c ws) (summed Rabs c ws) (draw rounded st ws c) (summed (fun v => v) c ws).
Proof.
  induction ws as [|w t IH] using rev_ind.
  - cbn [summed times]. unfold draw. cbn [fold_left]. unfold blank. rewrite zero_rounded. apply same_value.
  - rewrite draw_snoc, bump_value, !summed_app, times_app. destruct w as [d v]. cbn [fst snd summed times].
    destruct (list_eq_dec Z.eq_dec d c) as [e|N].
    + rewrite Nat.add_1_r, !Rplus_0_r. apply add_close; [apply summed_abs|lra|exact IH|apply exact_value].
    + rewrite Nat.add_0_r, !Rplus_0_r. exact IH.
Qed.

(** * The threads *)

Lemma plus_value a b c : plus rounded st a b c = st (rnd 53 (a c + b c)).
Proof. reflexivity. Qed.

(** Adding up pictures that are all known up to [k] roundings. *)
Lemma pictures_close {B} (pic : B -> picture rounded) (y size : B -> R) c k l :
  (forall b, In b l -> Rabs (y b) <= size b /\ within_roundings u k (size b) (pic b c) (y b)) ->
  let sum g := fold_right (fun b t => g b + t) 0 l in
  Rabs (sum y) <= sum size
  /\ within_roundings u (k + length l) (sum size) (fold_left (fun out b => plus rounded st out (pic b)) l (blank rounded) c) (sum y).
Proof.
  intros H sum. subst sum. induction l as [|b l IH] using rev_ind.
  - cbn [fold_right fold_left length]. unfold blank. rewrite zero_rounded, Rabs_R0. split; [lra|]. apply same_value.
  - assert (S : forall g : B -> R, fold_right (fun b t => g b + t) 0 (l ++ [b]) = fold_right (fun b t => g b + t) 0 l + g b).
    { intro g. clear. induction l as [|a l IH]; cbn [fold_right app]; [lra|]. rewrite IH. lra. }
    rewrite !S, fold_left_app. cbn [fold_left]. rewrite plus_value, app_length. cbn [length].
    destruct IH as (I0 & I1); [intros b' Hb; apply H; apply in_or_app; left; exact Hb|].
    destruct (H b ltac:(apply in_or_app; right; left; reflexivity)) as (H0 & H1).
    split; [eapply Rle_trans; [apply Rabs_triang|]; lra|].
    replace (k + (length l + 1))%nat with (Datatypes.S (k + length l)) by lia. apply add_close; [exact I0|exact H0|exact I1|].
    apply closer with k; [lia| |exact H1]. pose proof (Rabs_pos (y b)). lra.
Qed.

Definition of_turn (f : rpart rounded -> list (rwrite rounded)) ps threads t : list (list Z * R) :=
  flat_map f (VisModel.slice ps (VisModel.thread_range (zlen ps) threads t)).

Lemma summed_turns g c f ps threads groups : (1 <= threads)%Z -> Permutation (concat groups) (zrange 0 threads) ->
  fold_right (fun ts s => fold_right (fun t s => summed g c (of_turn f ps threads t) + s) 0 ts + s) 0 groups = summed g c (flat_map f ps).
Proof.
  intros T P.
  assert (E : forall l, fold_right (fun t s => summed g c (of_turn f ps threads t) + s) 0 l = summed g c (flat_map (of_turn f ps threads) l)).
  { induction l as [|t l IH]; cbn [fold_right flat_map summed]; [reflexivity|]. rewrite summed_app, IH. reflexivity. }
  assert (E2 : forall gs, fold_right (fun ts s => fold_right (fun t s => summed g c (of_turn f ps threads t) + s) 0 ts + s) 0 gs
                          = summed g c (flat_map (of_turn f ps threads) (concat gs))).
  { induction gs as [|ts gs IH]; cbn [fold_right concat flat_map summed]; [reflexivity|]. rewrite flat_map_app, summed_app, IH, E. reflexivity. }
  rewrite E2.
  assert (Perm : forall a b, Permutation a b -> summed g c a = summed g c b).
  { induction 1 as [|[d v] a b _ I|[d v] [d' v'] a|a b b' _ I1 _ I2]; cbn [summed]; [reflexivity|rewrite I; reflexivity|lra|congruence]. }
  rewrite (Perm _ (flat_map (of_turn f ps threads) (zrange 0 threads))) by (apply Permutation_flat_map; exact P).
  rewrite <- (VisProofs.slices_all _ ps threads T) at 2. unfold of_turn. f_equal.
  generalize (zrange 0 threads). induction l as [|t l IH]; cbn [flat_map]; [reflexivity|]. rewrite flat_map_app, IH. reflexivity.
Qed.

Lemma times_part c f ps threads t : (times c (of_turn f ps threads t) <= times c (flat_map f ps))%nat.
Proof.
  unfold of_turn, VisModel.slice. set (a := Z.to_nat _). set (b := Z.to_nat _). set (l := ps).
  rewrite <- (firstn_skipn b l) at 2. rewrite flat_map_app, times_app.
  rewrite <- (firstn_skipn a (skipn b l)) at 2. rewrite flat_map_app, times_app. lia.
Qed.

Lemma parallel_close f ps threads groups c : (1 <= threads)%Z -> Permutation (concat groups) (zrange 0 threads) ->
  within_roundings u (times c (flat_map f ps) + Z.to_nat threads + length groups) (summed Rabs c (flat_map f ps))
    (parallel rounded st f ps threads groups c) (summed (fun v => v) c (flat_map f ps)).
Proof.
  intros T P. pose proof (summed_turns Rabs c f ps threads groups T P) as E1.
  pose proof (summed_turns (fun v => v) c f ps threads groups T P) as E2.
  set (N := times c (flat_map f ps)). unfold parallel.
  assert (G : forall a b, a = summed Rabs c (flat_map f ps) -> b = summed (fun v => v) c (flat_map f ps) ->
    within_roundings u (N + Z.to_nat threads + length groups) a (parallel rounded st f ps threads groups c) b ->
    within_roundings u (N + Z.to_nat threads + length groups) (summed Rabs c (flat_map f ps))
      (parallel rounded st f ps threads groups c) (summed (fun v => v) c (flat_map f ps))) by (intros a b -> -> W; exact W).
  apply (G _ _ E1 E2). clear G E1 E2.
  pose proof (pictures_close (worker rounded st f ps threads)
    (fun ts => fold_right (fun t s => summed (fun v => v) c (of_turn f ps threads t) + s) 0 ts)
    (fun ts => fold_right (fun t s => summed Rabs c (of_turn f ps threads t) + s) 0 ts) c (N + Z.to_nat threads) groups) as G.
  apply G. intros ts Hts. unfold worker.
  pose proof (pictures_close (thread_picture rounded st f ps threads) (fun t => summed (fun v => v) c (of_turn f ps threads t))
    (fun t => summed Rabs c (of_turn f ps threads t)) c N ts) as (G0 & G1).
  { intros t _. split; [apply summed_abs|]. apply closer with (times c (of_turn f ps threads t));
      [apply times_part|apply summed_nonneg|]. apply pixel_close. }
  split; [exact G0|]. apply closer with (N + length ts)%nat; [|eapply Rle_trans; [apply Rabs_pos|exact G0]|exact G1].
  assert (L : (length ts <= length (concat groups))%nat).
  { clear -Hts. induction groups as [|g gs IH]; [destruct Hts|]. cbn [concat]. rewrite app_length. destruct Hts as [-> |H]; [lia|]. specialize (IH H). lia. }
  rewrite (Permutation_length P) in L. unfold zrange in L. rewrite map_length, seq_length in L. lia.
Qed.

(** One thread: the picture is that of the serial function. *)
Lemma draw_stored ws c : exists x, draw rounded st ws c = st (rnd 53 x).
Proof.
  induction ws as [|w t IH] using rev_ind.
  - exists 0. unfold draw. cbn [fold_left]. unfold blank. rewrite zero_rounded, step_zero. reflexivity.
  - rewrite draw_snoc, bump_value. destruct (list_eq_dec Z.eq_dec (fst w) c); [eexists; reflexivity|exact IH].
Qed.
Lemma plus_blank ws c : plus rounded st (blank rounded) (draw rounded st ws) c = draw rounded st ws c.
Proof.
  rewrite plus_value. unfold blank. rewrite zero_rounded. cbn beta. rewrite Rplus_0_l. destruct (draw_stored ws c) as (x & ->). apply step_again.
Qed.

(** * More of it *)

Lemma draw_le ws ws' c : Forall2 (fun w w' => fst w = fst w' /\ snd w <= snd w') ws ws' -> draw rounded st ws c <= draw rounded st ws' c.
Proof.
  intro H. unfold draw. assert (I : forall c, blank rounded c <= blank rounded c) by (intro; apply Rle_refl).
  revert I. generalize (blank rounded) at 1 3. generalize (blank rounded).
  induction H as [|[d v] [d' v'] t t' (E & L) _ IH]; intros a b I; cbn [fold_left]; [apply I|]. apply IH. intro e.
  rewrite !bump_value. cbn [fst snd] in *. subst d'. destruct (list_eq_dec Z.eq_dec d e); [|apply I].
  apply step_le. apply Rplus_le_compat; [apply I|exact L].
Qed.

Lemma draw_nonneg ws c : (forall w, In w ws -> 0 <= snd w) -> 0 <= draw rounded st ws c.
Proof.
  induction ws as [|w t IH] using rev_ind; intro H.
  - unfold draw. cbn [fold_left]. unfold blank. rewrite zero_rounded. lra.
  - rewrite draw_snoc, bump_value. assert (I : 0 <= draw rounded st t c) by (apply IH; intros; apply H; apply in_or_app; left; assumption).
    destruct w as [d v]; cbn [fst snd] in *; destruct (list_eq_dec Z.eq_dec d c); [|exact I]. rewrite <- step_zero. apply step_le.
    pose proof (H (d, v) ltac:(apply in_or_app; right; left; reflexivity)) as Hv; cbn [snd] in Hv. lra.
Qed.

Lemma draw_grows ws ws' c : (forall w, In w ws' -> 0 <= snd w) -> draw rounded st ws c <= draw rounded st (ws ++ ws') c.
Proof.
  induction ws' as [|w t IH] using rev_ind; intro H; [rewrite app_nil_r; apply Rle_refl|].
  rewrite app_assoc, draw_snoc, bump_value.
  assert (I : draw rounded st ws c <= draw rounded st (ws ++ t) c) by (apply IH; intros; apply H; apply in_or_app; left; assumption).
  destruct w as [d v]; cbn [fst snd] in *; destruct (list_eq_dec Z.eq_dec d c); [|exact I]. eapply Rle_trans; [exact I|].
  destruct (draw_stored (ws ++ t) c) as (x & E). rewrite E at 1. rewrite <- step_again, <- E. apply step_le.
  pose proof (H (d, v) ltac:(apply in_or_app; right; left; reflexivity)) as Hv; cbn [snd] in Hv. match goal with |- ?a <= _ => apply Rle_trans with (a + 0); [rewrite Rplus_0_r; apply Rle_refl|apply Rplus_le_compat_l; exact Hv] end.
Qed.

Lemma draw_at_least ws c v : (forall w, In w ws -> 0 <= snd w) -> In (c, v) ws -> st (rnd 53 v) <= draw rounded st ws c.
Proof.
  intros H I. destruct (in_split _ _ I) as (a & b & ->). replace (a ++ (c, v) :: b) with ((a ++ [(c, v)]) ++ b) by (rewrite <- app_assoc; reflexivity).
  eapply Rle_trans; [|apply draw_grows; intros w Hw; apply H; apply in_or_app; right; right; exact Hw].
  rewrite draw_snoc, bump_value. cbn [fst snd]. destruct (list_eq_dec Z.eq_dec c c) as [_|N]; [|congruence]. apply step_le.
  pose proof (draw_nonneg a c ltac:(intros w Hw; apply H; apply in_or_app; left; exact Hw)). lra.
Qed.

(** A write of zero changes nothing. *)
Lemma draw_nothing ws c : draw rounded st (filter (fun w => if Req_EM_T (snd w) 0 then false else true) ws) c = draw rounded st ws c.
Proof.
  induction ws as [|w t IH] using rev_ind; [reflexivity|]. rewrite filter_app. cbn [filter].
  destruct w as [d v]; cbn [fst snd] in *. destruct (Req_EM_T v 0) as [E|E].
  - rewrite app_nil_r, IH, draw_snoc, bump_value. cbn [fst snd]. destruct (list_eq_dec Z.eq_dec d c); [|reflexivity].
    rewrite E, Rplus_0_r. destruct (draw_stored t c) as (x & ->). rewrite step_again. reflexivity.
  - rewrite !draw_snoc, !bump_value, IH. reflexivity.
Qed.
End Store.

(** Histograms of several axes: densities, and what the cells hold. *)
From Coq Require Import List ZArith Bool Reals Lra Lia.
From Verif Require Import Base CosmoModel CosmoSpec CosmoProofs FuncModel FuncSpec FuncProofs FuncMoreProofs.
Import ListNotations.
Open Scope R_scope.

(** * [histogramdd] with density *)
Lemma reduce_mul : forall s ks a,
  reduce_from h_multiply2 (lcf s a) (map (lcf s) ks) = Ok (lcf s (a + sum_of ks)).
Proof.
  intros s ks. induction ks as [|k ks IH]; intro a; cbn [map reduce_from].
  - cbn [sum_of fold_right]. rewrite Rplus_0_r. reflexivity.
  - rewrite h_mul_ok. cbn [bind]. rewrite IH, sum_of_cons, Rplus_assoc. reflexivity.
Qed.
Lemma h_multiply_all : forall s k ks, h_multiply (map (lcf s) (k :: ks)) = Ok (lcf s (sum_of (k :: ks))).
Proof. intros s k ks. unfold h_multiply, reduce. cbn [map]. rewrite reduce_mul, sum_of_cons. reflexivity. Qed.
Lemma prod_ffac : forall s ks fr, prodR (map (fun k => ffac s k fr) ks) = ffac s (sum_of ks) fr.
Proof.
  intros s ks fr. induction ks as [|k ks IH].
  - unfold ffac, sum_of, prodR. cbn. rewrite Rpower_0r. destruct (is_true fr); reflexivity.
  - cbn [map]. change (prodR (ffac s k fr :: map (fun k => ffac s k fr) ks)) with (ffac s k fr * prodR (map (fun k => ffac s k fr) ks)).
    rewrite IH, sum_of_cons, ffac_plus. reflexivity.
Qed.
Lemma dd_cfs : forall s axes ks, Forall2 (good_axis s) axes ks ->
  map op_cf (map (fun sb : carr * bins => OArr (fst sb)) axes) = map (lcf s) ks.
Proof.
  intros s axes ks H. induction H as [|sb k axes ks [G _] _ IH]; [reflexivity|].
  cbn [map op_cf]. rewrite (g_cf _ _ _ G), IH. reflexivity.
Qed.
Lemma dd_sized : forall s axes ks, Forall2 (good_axis s) axes ks ->
  Forall2 (sized s) (map (fun sb : carr * bins => OArr (fst sb)) axes) ks.
Proof. intros s axes ks H. induction H as [|sb k axes ks [G _] _ IH]; cbn [map]; constructor; [constructor; exact G|exact IH]. Qed.
Lemma dd_phys : forall s axes ks fr, Forall2 (good_axis s) axes ks ->
  map (fun sb => phys (fst sb)) axes
  = map2 scale (map (fun k => ffac s k fr) ks) (map (in_frame fr) (map (fun sb : carr * bins => OArr (fst sb)) axes)).
Proof.
  intros s axes ks fr H. induction H as [|sb k axes ks [G _] _ IH]; [reflexivity|].
  cbn [map map2]. rewrite IH. f_equal. apply (phys_ffac s k (OArr (fst sb)) fr). constructor. exact G.
Qed.
Lemma dd_edges : forall s axes ks b, 0 < s -> Forall2 (good_axis s) axes ks ->
  Forall (fun sb => bins_in b (snd sb)) axes ->
  map (fun sb => phys_edges (fst sb) (snd sb)) axes
  = map2 scale (map (fun k => ffac s k (Some b)) ks)
      (map2 (fun v sb => edges v (nbins_of (snd sb) (bins_op (snd sb))))
            (map (in_frame (Some b)) (map (fun sb : carr * bins => OArr (fst sb)) axes)) axes).
Proof.
  intros s axes ks b S H. induction H as [|sb k axes ks [G B] _ IH]; intro F; [reflexivity|].
  inversion F as [|? ? Fb Ft]; subst. cbn [map map2]. rewrite (IH Ft). f_equal.
  rewrite (edges_frame s k (fst sb) (snd sb) (Some b) G B S). f_equal. f_equal. apply nbins_of_vals. cbn [op_vals].
  destruct Fb as [n|y M]; [destruct b; reflexivity|]. cbn [bins_op op_vals]. destruct (snd sb) eqn:E in B; inversion B; subst.
  all: unfold in_frame; destruct b; cbn [op_comov op_phys]; [apply comov_of_c; exact M|apply phys_of_p; rewrite M; discriminate].
Qed.
Lemma all_weights_frame : forall s axes w k fr, axes <> [] -> good_weights s w k ->
  all_weights axes w = scale (ffac s k fr) (weights_of (count_points axes) w (OPlain (in_frame fr (weights_op w)))).
Proof.
  intros s axes w k fr N [|o j H]; cbn [all_weights weights_of weights_op op_vals].
  - unfold ffac. rewrite Rpower_0r. destruct (is_true fr); rewrite scale_1; reflexivity.
  - apply phys_ffac. exact H.
Qed.

Lemma histdd_density_ok : forall s axes ks w kw, 0 < s -> axes <> [] ->
  Forall2 (good_axis s) axes ks -> good_weights s w kw ->
  let fr := some_comoving (map (fun sb : carr * bins => OArr (fst sb)) axes ++ [weights_op w]) in
  Forall (fun sb => bins_in fr (snd sb)) axes ->
  exists counts es, np_histdd_density axes w = Ok (OArr counts, es)
    /\ good s (kw - sum_of ks) counts /\ acm counts = Some fr
    /\ phys counts = scale (ffac s kw (Some fr))
         (histv (map (fun sb => phys (fst sb)) axes) (map (fun sb => phys_edges (fst sb) (snd sb)) axes)
                (all_weights axes w) true).
Proof.
  intros s axes ks w kw S N H W fr B.
  destruct (axes_ok s axes ks S H) as (ps & cs & Eps & _).
  pose proof (sized_weights s w kw W) as Sw.
  set (args := map (fun sb : carr * bins => OArr (fst sb)) axes) in *.
  set (kwl := [OPlain []; OPlain []; weights_op w]).
  assert (C : Forall conv (arrs (args ++ kwl))).
  { apply (sized_conv s _ (ks ++ [0; 0; kw])). apply Forall2_app; [apply dd_sized; exact H|].
    unfold kwl. repeat (constructor; try assumption). }
  destruct (prepare_conv args kwl C) as (args' & kw' & P & Na & Nk & _).
  assert (F : frame (args ++ kwl) = Some fr).
  { unfold args at 1. destruct axes as [|sb rest]; [congruence|]. cbn [map app]. rewrite some_comoving_frame. f_equal.
    unfold fr, args, some_comoving, kwl. cbn [map app existsb]. f_equal. rewrite !existsb_app. f_equal. }
  rewrite F in P, Na, Nk.
  destruct kw' as [|c1 [|c2 [|w' [|? ?]]]]; try discriminate Nk.
  unfold kwl in Nk. unfold numbers in Nk. cbn [map] in Nk. injection Nk as _ _ Nw.
  match type of P with _ = Ok ?q0 => remember q0 as q eqn:Q end.
  assert (Qa : numbers (k_args q) = map (in_frame (Some fr)) args) by (rewrite Q; exact Na).
  assert (Qk : k_kw q = [c1; c2; w']) by (rewrite Q; reflexivity).
  assert (Qc : k_cm q = Some fr) by (rewrite Q; reflexivity).
  assert (Qv : k_vt q = true) by (rewrite Q; reflexivity).
  assert (Qf : k_cfs q = map (lcf s) ks) by (rewrite Q; apply (dd_cfs s axes ks H)).
  clear Q. unfold np_histdd_density. rewrite Eps. fold args. fold kwl. rewrite P. cbn [bind]. rewrite Qa, Qk, Qf. cbn [nth].
  rewrite (weights_of_vals _ w w' (OPlain (in_frame (Some fr) (weights_op w)))) by exact Nw.
  pose proof (all_weights_frame s axes w kw (Some fr) N W) as Ew.
  pose proof (dd_phys s axes ks (Some fr) H) as Ep. pose proof (dd_edges s axes ks fr S H B) as Ee.
  fold args in Ep, Ee.
  set (vs := map (in_frame (Some fr)) args) in *.
  set (es := map2 (fun v sb => edges v (nbins_of (snd sb) (bins_op (snd sb)))) vs axes) in *.
  set (wv := weights_of (count_points axes) w (OPlain (in_frame (Some fr) (weights_op w)))) in *.
  assert (Ll : length ks = length axes) by (symmetry; apply (F2_length _ _ _ _ _ H)).
  assert (Lv : length vs = length axes) by (unfold vs, args; rewrite !map_length; reflexivity).
  destruct (histv_scale (map (fun k => ffac s k (Some fr)) ks) es vs (ffac s kw (Some fr)) wv) as [_ V].
  { apply Forall_forall. intros c Hc. apply in_map_iff in Hc. destruct Hc as (k & <- & _). apply ffac_pos. }
  { apply ffac_pos. } { rewrite map_length. congruence. }
  { rewrite map_length. unfold es. rewrite map2_length; congruence. }
  rewrite <- Ep, <- Ee, <- Ew, prod_ffac in V.
  set (cnt := histv vs es wv true) in *.
  destruct ks as [|k0 ks0]; [destruct axes; [congruence|discriminate Ll]|]. rewrite h_multiply_all. cbn [bind].
  set (K := sum_of (k0 :: ks0)) in *.
  unfold h_reciprocal. rewrite h_power_ok. cbn [bind].
  assert (L : forall m, m = kw - K ->
     good s (kw - K) (label cnt (lcf s m) q) /\ acm (label cnt (lcf s m) q) = Some fr
     /\ phys (label cnt (lcf s m) q) = scale (ffac s kw (Some fr)) (scale (/ ffac s K (Some fr)) cnt)).
  { intros m ->. unfold label. rewrite Qc, Qv.
    split; [apply good_label|]. split; [reflexivity|]. rewrite good_phys_label, scale_scale. f_equal.
    unfold Rminus. rewrite ffac_plus. f_equal. replace (- K) with (K * -1) by ring. apply ffac_neg. }
  rewrite <- V in L. destruct axes as [|[x0 b0] rest]; [congruence|].
  destruct W as [|o kw Sz]; cbn [bind weights_op] in *.
  - destruct (L (K * -1)) as (L1 & L2 & L3); [ring|].
    eexists _, _. split; [reflexivity|]. split; [exact L1|]. split; [exact L2|exact L3].
  - rewrite keep_ok. cbn [bind].
    assert (Hm : h_multiply2 (op_cf o) (lcf s (K * -1)) = Ok (lcf s (kw - K))).
    { destruct Sz as [y k G|v].
      - cbn [op_cf]. rewrite (g_cf _ _ _ G). fold (lcf s k). rewrite h_mul_ok. f_equal. apply lcf_eq. ring.
      - cbn [op_cf h_multiply2 lcf]. f_equal. apply lcf_eq. ring. }
    rewrite Hm. cbn [bind]. destruct (L (kw - K) eq_refl) as (L1 & L2 & L3).
    eexists _, _. split; [reflexivity|]. split; [exact L1|]. split; [exact L2|exact L3].
Qed.

(** * Cells of a grid *)
Lemma flat_map_block : forall A B (g : A -> list B) n l j i da db,
  (forall x, length (g x) = n) -> (i < n)%nat -> (j < length l)%nat ->
  nth (j * n + i) (flat_map g l) db = nth i (g (nth j l da)) db.
Proof.
  intros A B g n l. induction l as [|x l IH]; intros j i da db L I J; [cbn in J; lia|].
  cbn [flat_map]. destruct j as [|j].
  - rewrite app_nth1 by (rewrite L; lia). reflexivity.
  - cbn [length] in J. rewrite app_nth2 by (rewrite L; lia). rewrite L.
    replace (S j * n + i - n)%nat with (j * n + i)%nat by lia. cbn [nth]. apply IH; [exact L|exact I|lia].
Qed.
Lemma grid_size : forall es, length (grid es) = cells_in es.
Proof.
  induction es as [|e es IH]; [reflexivity|]. cbn [grid cells_in]. rewrite <- cells_length.
  induction (cells e) as [|c l IHl]; [reflexivity|]. cbn [flat_map length]. rewrite app_length, map_length, IHl, IH. lia.
Qed.
Lemma flat_lt : forall es js, Forall2 (fun e j => (S j < length e)%nat) es js -> (cell_index es js < cells_in es)%nat.
Proof.
  intros es js H. induction H as [|e j es js L _ IH]; cbn [cell_index cells_in]; [lia|].
  assert (S j <= length e - 1)%nat by lia. nia.
Qed.
Lemma grid_nth : forall es js d, Forall2 (fun e j => (S j < length e)%nat) es js ->
  nth (cell_index es js) (grid es) d
  = map2 (fun e j => (nth j e 0, nth (S j) e 0, Nat.eqb (S (S j)) (length e))) es js.
Proof.
  intros es js d H. revert d. induction H as [|e j es js L H IH]; intro d; [reflexivity|].
  cbn [grid cell_index map2].
  rewrite (flat_map_block _ _ (fun c => map (cons c) (grid es)) (cells_in es) (cells e) j _ (0, 0, true)).
  - rewrite (nth_indep _ d ((0, 0, true) :: [])) by (rewrite map_length, grid_size; apply flat_lt; exact H).
    rewrite (nth_indep _ _ (cons (nth j (cells e) (0,0,true)) [])) by (rewrite map_length, grid_size; apply flat_lt; exact H).
    rewrite (map_nth (cons (nth j (cells e) (0, 0, true)))). rewrite IH, cells_nth by exact L. reflexivity.
  - intro c. rewrite map_length. apply grid_size.
  - apply flat_lt; exact H.
  - rewrite cells_length. lia.
Qed.
Lemma inside_bins : forall es js vs i, length es = length vs -> length js = length vs ->
  inside (map2 (fun e j => (nth j e 0, nth (S j) e 0, Nat.eqb (S (S j)) (length e))) es js) vs i = true
  <-> in_bins es js vs i.
Proof.
  induction es as [|e es IH]; intros [|j js] [|v vs] i L M; try discriminate L; try discriminate M.
  - cbn. split; intro; [constructor|reflexivity].
  - injection L as L. injection M as M. cbn [map2 inside]. rewrite andb_true_iff, in_cell_bin, (IH js vs i L M).
    split; [intros [A B]; constructor; assumption|intro A; inversion A; subst; split; assumption].
Qed.
Lemma weight_of_sum : forall (P : nat -> Prop) (p : nat -> bool) w n, (forall i, p i = true <-> P i) ->
  weight_of P n w (sumR (map (fun i => if p i then nth (i - n) w 0 else 0) (seq n (length w)))).
Proof.
  intros P p w. induction w as [|a w IH]; intros n E; [constructor|].
  cbn [length seq map]. rewrite Nat.sub_diag. cbn [nth].
  match goal with |- weight_of P n (a :: w) (sumR (?h :: ?l)) => change (sumR (h :: l)) with (h + sumR l) end.
  assert (Q : map (fun i => if p i then match (i - n)%nat with O => a | S m => nth m w 0 end else 0) (seq (S n) (length w))
            = map (fun i => if p i then nth (i - S n) w 0 else 0) (seq (S n) (length w))).
  { apply map_ext_in. intros i Hi. apply in_seq in Hi. destruct (p i); [|reflexivity].
    replace (i - n)%nat with (S (i - S n)) by lia. reflexivity. }
  rewrite Q. destruct (p n) eqn:B.
  - apply wo_in; [apply E; exact B|apply IH; exact E].
  - rewrite Rplus_0_l. apply wo_out; [|apply IH; exact E]. intro A. apply E in A. congruence.
Qed.
Lemma grid_counts : forall es js vs w, length es = length vs ->
  Forall2 (fun e j => (S j < length e)%nat) es js ->
  weight_of (in_bins es js vs) 0 w (nth (cell_index es js) (histv vs es w false) 0).
Proof.
  intros es js vs w L H. unfold histv.
  rewrite (nth_indep _ 0 (counted vs w [])) by (rewrite map_length, grid_size; apply flat_lt; exact H).
  rewrite map_nth, (grid_nth es js [] H). unfold counted.
  assert (M : length js = length vs) by (rewrite <- L; symmetry; apply (F2_length _ _ _ _ _ H)).
  replace (map _ (seq 0 (length w))) with
    (map (fun i => if inside (map2 (fun e j => (nth j e 0, nth (S j) e 0, Nat.eqb (S (S j)) (length e))) es js) vs i
                   then nth (i - 0) w 0 else 0) (seq 0 (length w))).
  - apply weight_of_sum. intro i. apply inside_bins; assumption.
  - apply map_ext. intro i. rewrite Nat.sub_0_r. reflexivity.
Qed.

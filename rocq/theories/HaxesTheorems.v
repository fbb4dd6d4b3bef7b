(** C131: histograms of several axes, and bin edges, with ranges. *)
From Coq Require Import String List ZArith Bool Reals Lra Lia.
From Verif Require Import Base CosmoModel CosmoSpec CosmoProofs FuncModel FuncSpec FuncProofs FuncMoreProofs FuncHistProofs FuncTheorems HrangeModel HrangeSpec HrangeTheorems HaxesModel.
Import ListNotations.
Open Scope R_scope.

Lemma map2_map_l : forall A A' B C (f : A' -> B -> C) (g : A -> A') l m, map2 f (map g l) m = map2 (fun a b => f (g a) b) l m.
Proof. induction l as [|a l IH]; intros [|b m]; cbn; [reflexivity..|]. f_equal. apply IH. Qed.

(** Without ranges these are the functions of C69. *)
Definition no_range (sb : carr * bins) : raxis := (sb, RNone).
Lemma edges_in_none : forall v b, edges_in v b None = Ok (edges v b).
Proof. intros v []; reflexivity. Qed.
Lemma no_ranges_back : forall axes, map plain_axis (map no_range axes) = axes.
Proof. intro axes. rewrite map_map. unfold plain_axis, no_range. cbn [fst]. apply map_id. Qed.
Lemma all_ok_len : forall A (l : list (res A)) r, all_ok l = Ok r -> length r = length l.
Proof.
  induction l as [|x l IH]; intros r E; cbn [all_ok] in E; [injection E as <-; reflexivity|].
  destruct x as [a|]; [|discriminate]. cbn [bind] in E. destruct (all_ok l) as [t|] eqn:Q; [|discriminate]. cbn [bind] in E. injection E as <-.
  cbn [length]. f_equal. apply IH. reflexivity.
Qed.
Lemma prepare_kw_len : forall d a k p, prepare_kw d a k = Ok p -> length (k_args p) = length a /\ length (k_kw p) = length k.
Proof.
  intros d a k p. unfold prepare_kw. cbn zeta. destruct (map snd _) as [|c cs]; [intro E; injection E as <-; split; reflexivity|].
  set (cms := c :: cs). destruct (forallb is_true cms); [intro E; injection E as <-; split; reflexivity|].
  destruct (forallb is_none cms); [intro E; injection E as <-; split; reflexivity|].
  destruct (existsb is_none cms); [discriminate|].
  destruct (forallb is_false cms); [intro E; injection E as <-; split; reflexivity|].
  destruct (d && _).
  - destruct (all_ok (map _ a)) as [a'|] eqn:A; [|discriminate]. cbn [bind]. destruct (all_ok (map _ k)) as [k'|] eqn:K; [|discriminate]. cbn [bind].
    intro E. injection E as <-. cbn [k_args k_kw]. rewrite (all_ok_len _ _ _ A), (all_ok_len _ _ _ K), !map_length. split; reflexivity.
  - destruct (all_ok (map _ a)) as [a'|] eqn:A; [|discriminate]. cbn [bind]. destruct (all_ok (map _ k)) as [k'|] eqn:K; [|discriminate]. cbn [bind].
    intro E. injection E as <-. cbn [k_args k_kw]. rewrite (all_ok_len _ _ _ A), (all_ok_len _ _ _ K), !map_length. split; reflexivity.
Qed.

Lemma no_range_edges : forall sb p, prepare_axis sb = Ok p -> axis_edges_in (no_range sb) p = Ok (axis_edges (snd sb) p).
Proof.
  intros sb p E. destruct (prepare_kw_len _ _ _ _ E) as (_ & L). unfold axis_edges_in, axis_edges, no_range, ax_bins, ax_range. cbn [fst snd range_numbers].
  destruct (k_kw p) as [|b [|r t]]; try discriminate L. apply edges_in_none.
Qed.
Lemma no_ranges_edges : forall axes ps, all_ok (map prepare_axis axes) = Ok ps ->
  all_ok (map2 axis_edges_in (map no_range axes) ps) = Ok (map2 (fun sb p => axis_edges (snd sb) p) axes ps).
Proof.
  induction axes as [|a axes IH]; intros ps E; cbn [map all_ok] in E; [injection E as <-; reflexivity|].
  destruct (prepare_axis a) as [p|] eqn:P; [|discriminate]. cbn [bind] in E. destruct (all_ok (map prepare_axis axes)) as [qs|] eqn:Q; [|discriminate].
  cbn [bind] in E. injection E as <-. cbn [map map2 all_ok]. rewrite (no_range_edges _ _ P), (IH _ eq_refl). reflexivity.
Qed.
Theorem C131_without : forall axes x y w,
  np_hist_counts_in (map no_range axes) w = np_hist_counts axes w
  /\ np_hist2d_density_in (no_range x) (no_range y) w = np_hist2d_density (fst x) (fst y) (snd x) (snd y) w
  /\ np_histdd_density_in (map no_range axes) w = np_histdd_density axes w
  /\ (forall a b, np_bin_edges_in a b RNone = np_bin_edges a b).
Proof.
  intros axes x y w. split; [|split; [|split]].
  - unfold np_hist_counts_in, np_hist_counts. rewrite no_ranges_back, map_map.
    change (fun a => prepare_axis_in (no_range a)) with prepare_axis.
    destruct (all_ok (map prepare_axis axes)) as [ps|] eqn:E; [|reflexivity]. cbn [bind]. destruct (prepare_kw _ _ _) as [pw|]; [|reflexivity]. cbn [bind].
    rewrite (no_ranges_edges _ _ E). cbn [bind]. rewrite map2_map_l. reflexivity.
  - unfold np_hist2d_density_in, np_hist2d_density. cbn [no_range ax_data ax_bins ax_range fst snd range_op range_numbers].
    destruct x as [x bx], y as [y by_]. cbn [fst snd]. change (prepare_axis_in (no_range (x, bx))) with (prepare_axis (x, bx)).
    change (prepare_axis_in (no_range (y, by_))) with (prepare_axis (y, by_)).
    destruct (prepare_axis (x, bx)); [|reflexivity]. cbn [bind]. destruct (prepare_axis (y, by_)); [|reflexivity]. cbn [bind].
    destruct (prepare_kw _ _ _) as [p|]; [|reflexivity]. cbn [bind].
    destruct (k_args p) as [|? [|? [|? ?]]]; try reflexivity. destruct (k_kw p) as [|? [|? [|? [|? [|? [|? ?]]]]]]; try reflexivity.
    rewrite !edges_in_none. reflexivity.
  - unfold np_histdd_density_in, np_histdd_density. rewrite no_ranges_back, !map_map.
    change (fun a => prepare_axis_in (no_range a)) with prepare_axis.
    change (map (fun a => OArr (ax_data (no_range a))) axes) with (map (fun sb : carr * bins => OArr (fst sb)) axes).
    destruct (all_ok (map prepare_axis axes)) as [ps|]; [|reflexivity]. cbn [bind]. destruct (prepare_kw _ _ _) as [p|]; [|reflexivity]. cbn [bind].
    assert (Q : forall vs, all_ok (map2 (fun v a => edges_in v (nbins_of (ax_bins a) (bins_op (ax_bins a))) (range_numbers (ax_range a) (range_op (ax_range a)))) vs (map no_range axes))
      = Ok (map2 (fun v (sb : carr * bins) => edges v (nbins_of (snd sb) (bins_op (snd sb)))) vs axes)).
    { induction axes as [|a axes IH]; intros [|v vs]; try reflexivity. cbn [map map2 all_ok].
      cbn [no_range ax_bins ax_range fst snd range_numbers]. rewrite edges_in_none. cbn [bind]. rewrite IH. reflexivity. }
    rewrite Q. cbn [bind]. destruct (h_multiply (k_cfs p)); [|reflexivity]. cbn [bind]. destruct axes as [|[x0 b0] axes]; reflexivity.
  - intros a b. unfold np_bin_edges_in, np_bin_edges. cbn [range_op].
    destruct (prepare_kw true [OArr a] _) as [p|] eqn:E; [|reflexivity]. cbn [bind]. destruct b as [n|o]; [|reflexivity]. destruct (keep (acf a)); [|reflexivity]. cbn [bind].
    assert (K : k_args p = [OArr a] /\ k_kw p = [OPlain []; OPlain []; OPlain []]).
    { revert E. unfold prepare_kw. cbn [app map filter fst snd op_cm bins_op]. destruct (acm a) as [[]|]; cbn; intro E; injection E as <-; split; reflexivity. }
    destruct K as (-> & ->). cbn [range_numbers]. rewrite edges_in_none. reflexivity.
Qed.

(** A range that is one array: the axis is that with the edges of equal bins between its two values, in the label and frame of
    the range. *)
Inductive ranged (s : R) : raxis -> carr * bins -> R -> Prop :=
| rg_none : forall x b k, good_axis s (x, b) k -> ranged s (x, b, RNone) (x, b) k
| rg_array : forall x y lo hi n k j, good s k x -> good s j y -> avals y = [lo; hi] -> lo < hi ->
    ranged s (x, BNum n, RArr y) (x, BEdges (OArr (renumbered y (even lo hi n)))) k.

Lemma good_axis_conv : forall s x b k, good_axis s (x, b) k -> Forall conv (arrs [OArr x; bins_op b]).
Proof.
  intros s x b k [G B]. cbn [fst snd] in *. cbn [arrs flat_map app]. constructor; [exists s, k; exact G|].
  destruct B as [n _|y Gy]; cbn [bins_op flat_map app]; [constructor|].
  constructor; [exists s, k; exact Gy|constructor].
Qed.
Lemma ranged_conv : forall s a sb k, ranged s a sb k -> conv (ax_data a) /\ Forall conv (arrs [bins_op (ax_bins a)]) /\ Forall conv (arrs [range_op (ax_range a)])
  /\ Forall conv (arrs [bins_op (snd sb)]) /\ ax_data a = fst sb.
Proof.
  intros s a sb k [x b k0 H|x y lo hi n k0 j Gx Gy Ey Hl]; unfold ax_data, ax_bins, ax_range; cbn [fst snd bins_op range_op].
  - pose proof (good_axis_conv _ _ _ _ H) as C. cbn [arrs flat_map app] in *. inversion C as [|? ? C1 C2]. split; [exact C1|]. split; [exact C2|]. split; [constructor|]. split; [exact C2|reflexivity].
  - cbn [arrs flat_map app]. split; [exists s, k0; assumption|]. split; [constructor|]. split; [constructor; [exists s, j; assumption|constructor]|].
    split; [constructor; [exists s, j; apply renumbered_good; assumption|constructor]|reflexivity].
Qed.
(** The edges of an axis in one frame are the same both ways. *)
Lemma ranged_edges : forall s a sb k fr v b1 r1 b2, ranged s a sb k ->
  op_vals b1 = in_frame fr (bins_op (ax_bins a)) -> op_vals r1 = in_frame fr (range_op (ax_range a)) -> op_vals b2 = in_frame fr (bins_op (snd sb)) ->
  edges_in v (nbins_of (ax_bins a) b1) (range_numbers (ax_range a) r1) = Ok (edges v (nbins_of (snd sb) b2)).
Proof.
  intros s a sb k fr v b1 r1 b2 H. destruct H as [x b k H|x y lo hi n k j Gx Gy Ey Hl]; unfold ax_bins, ax_range; cbn [fst snd]; intros E1 Er E2.
  - cbn [range_numbers]. rewrite edges_in_none. f_equal. f_equal. unfold nbins_of. destruct b; [reflexivity|]. rewrite E1, E2. reflexivity.
  - cbn [nbins_of range_numbers bins_op range_op] in *. destruct (framed s j y fr Gy) as (c & Hc & Ec).
    rewrite Er, E2, Ec. pose proof (Ec (avals y)) as Q. rewrite renumbered_id in Q. rewrite Q, Ey, edges_in_scaled by assumption. reflexivity.
Qed.
Lemma prepare_ranged : forall s a sb k, ranged s a sb k ->
  exists p q, prepare_axis_in a = Ok p /\ prepare_axis sb = Ok q /\ axis_edges_in a p = Ok (axis_edges (snd sb) q) /\ axis_numbers p = axis_numbers q
    /\ forall v c, label v c p = label v c q.
Proof.
  intros s a sb k H. destruct (ranged_conv _ _ _ _ H) as (Cx & Cb & Cr & Cb' & D).
  assert (C1 : Forall conv (arrs ([OArr (ax_data a)] ++ [bins_op (ax_bins a); range_op (ax_range a)]))).
  { cbn [app arrs flat_map] in *. rewrite app_nil_r in *. constructor; [exact Cx|]. apply Forall_app. split; assumption. }
  assert (C2 : Forall conv (arrs ([OArr (fst sb)] ++ [bins_op (snd sb); OPlain []]))).
  { cbn [app arrs flat_map] in *. rewrite !app_nil_r in *. constructor; [rewrite <- D; exact Cx|exact Cb']. }
  destruct (prepare_conv _ _ C1) as (a1 & k1 & E1 & A1 & K1 & _). destruct (prepare_conv _ _ C2) as (a2 & k2 & E2 & A2 & K2 & _).
  unfold prepare_axis_in, prepare_axis. rewrite E1, E2. do 2 eexists. split; [reflexivity|]. split; [reflexivity|].
  assert (Fr : frame ([OArr (ax_data a)] ++ [bins_op (ax_bins a); range_op (ax_range a)]) = frame ([OArr (fst sb)] ++ [bins_op (snd sb); OPlain []])).
  { destruct H; [reflexivity|]. reflexivity. }
  assert (Co : comp_of ([OArr (ax_data a)] ++ [bins_op (ax_bins a); range_op (ax_range a)]) = comp_of ([OArr (fst sb)] ++ [bins_op (snd sb); OPlain []])).
  { destruct H as [|x y lo hi n k0 j Gx Gy Ey Hl]; [reflexivity|]. unfold ax_data, ax_bins, ax_range, comp_of. cbn [fst snd bins_op range_op app map forallb op_comp].
    change (acomp (renumbered y (even lo hi n))) with (acomp y). cbn [comp_eqb Bool.eqb andb]. destruct (comp_eqb (acomp x) (acomp y)); reflexivity. }
  rewrite Fr, Co in *. set (fr := frame _) in *. clearbody fr.
  destruct a1 as [|x1 [|? ?]]; try discriminate. destruct a2 as [|x2 [|? ?]]; try discriminate.
  destruct k1 as [|b1 [|r1 [|? ?]]]; try discriminate. destruct k2 as [|b2 [|r2 [|? ?]]]; try discriminate.
  unfold numbers in *. cbn [map] in *. injection A1 as X1. injection A2 as X2. injection K1 as B1 R1. injection K2 as B2 _.
  assert (X : op_vals x1 = op_vals x2) by (rewrite X1, X2, D; reflexivity).
  split; [|split].
  - unfold axis_edges_in, axis_edges, axis_numbers. cbn [k_args k_kw]. rewrite X. apply (ranged_edges s a sb k fr); assumption.
  - unfold axis_numbers. cbn [k_args]. exact X.
  - reflexivity.
Qed.
Lemma prepare_all_ranged : forall s axes sbs ks, Forall2 (fun a sk => ranged s a (fst sk) (snd sk)) axes (combine sbs ks) -> length sbs = length ks ->
  exists ps qs, all_ok (map prepare_axis_in axes) = Ok ps /\ all_ok (map prepare_axis sbs) = Ok qs
    /\ all_ok (map2 axis_edges_in axes ps) = Ok (map2 (fun sb p => axis_edges (snd sb) p) sbs qs) /\ map axis_numbers ps = map axis_numbers qs
    /\ Forall2 (fun p q => forall v c, label v c p = label v c q) ps qs /\ map ax_data axes = map fst sbs.
Proof.
  intros s axes sbs. revert axes. induction sbs as [|sb sbs IH]; intros axes [|k ks] H L; try discriminate L; cbn [combine] in H; inversion H as [|a ? axes' ? R1 R2]; subst.
  - exists [], []. repeat match goal with |- _ /\ _ => split end; try reflexivity. constructor.
  - injection L as L. cbn [fst snd] in R1. destruct (IH _ _ R2 L) as (ps & qs & P & Q & E & N & F & D).
    destruct (prepare_ranged _ _ _ _ R1) as (p & q & P1 & Q1 & E1 & N1 & F1). destruct (ranged_conv _ _ _ _ R1) as (_ & _ & _ & _ & D1).
    exists (p :: ps), (q :: qs). cbn [map all_ok map2]. rewrite P1, Q1, P, Q. cbn [bind]. rewrite E1, E. cbn [bind].
    repeat match goal with |- _ /\ _ => split end; try reflexivity; [rewrite N1, N; reflexivity|constructor; assumption|rewrite D1, D; reflexivity].
Qed.

Theorem C131_counts_array : forall s axes sbs ks w, Forall2 (fun a sk => ranged s a (fst sk) (snd sk)) axes (combine sbs ks) -> length sbs = length ks ->
  np_hist_counts_in axes w = np_hist_counts sbs w.
Proof.
  intros s axes sbs ks w H L. destruct (prepare_all_ranged s axes sbs ks H L) as (ps & qs & P & Q & E & N & F & D).
  unfold np_hist_counts_in, np_hist_counts. rewrite P, Q. cbn [bind]. destruct (prepare_kw _ _ _) as [pw|]; [|reflexivity]. cbn [bind]. rewrite E, N. cbn [bind].
  assert (Cn : count_points (map plain_axis axes) = count_points sbs).
  { destruct axes as [|[[x b] r] axes], sbs as [|[x' b'] sbs]; try discriminate D; [reflexivity|]. injection D as D _. unfold ax_data in D. cbn [fst] in D. subst. reflexivity. }
  rewrite Cn. f_equal. f_equal. set (es := map2 _ sbs qs). clearbody es. clear P Q E N Cn H L.
  revert axes sbs D es. induction F as [|p q ps qs Hp F IH]; intros axes sbs D es.
  - destruct es; cbn [combine]; destruct axes, sbs; reflexivity.
  - destruct es as [|e es]; [cbn [combine]; destruct axes, sbs; reflexivity|]. destruct axes as [|a axes], sbs as [|sb sbs]; try discriminate D; [reflexivity|].
    injection D as D1 D. cbn [combine map2 fst snd]. rewrite Hp, D1. f_equal. apply IH, D.
Qed.

(** Equal bins are determined by their ends and their number. *)
Lemma equal_bins_unique : forall lo hi n e e', equal_bins lo hi n e -> equal_bins lo hi n e' -> e = e'.
Proof.
  intros lo hi n e e' (L & A & _ & D) (L' & A' & _ & D'). apply (nth_ext _ _ 0 0); [congruence|]. rewrite L. intros i Hi.
  induction i as [|i IH]; [congruence|]. assert (Q : (i < n)%nat) by lia. specialize (D i Q). specialize (D' i Q). specialize (IH ltac:(lia)). lra.
Qed.

(** What an axis means: its edges in physical values. *)
Inductive placed (s : R) : raxis -> R -> list R -> Prop :=
| pl_none : forall x b k, good_axis s (x, b) k -> placed s (x, b, RNone) k (phys_edges x b)
| pl_array : forall x y a b n k t, good s k x -> good s k y -> phys y = [a; b] -> a < b -> (0 < n)%nat -> equal_bins a b n t ->
    placed s (x, BNum n, RArr y) k t.
Inductive all_placed (s : R) : list raxis -> list R -> list (list R) -> Prop :=
| ap_nil : all_placed s [] [] []
| ap_cons : forall a k t axes ks ts, placed s a k t -> all_placed s axes ks ts -> all_placed s (a :: axes) (k :: ks) (t :: ts).

Lemma placed_ranged : forall s a k t, placed s a k t -> exists sb, ranged s a sb k /\ good_axis s sb k /\ fst sb = ax_data a /\ phys_edges (fst sb) (snd sb) = t.
Proof.
  intros s a k t [x b k0 H|x y a0 b0 n k0 t0 Gx Gy Ey Hl Hn Et].
  - exists (x, b). split; [constructor; exact H|]. split; [exact H|]. split; reflexivity.
  - destruct (framed s k0 y (Some false) Gy) as (c & Hc & Ec). cbn [in_frame op_phys] in Ec.
    assert (P : phys y = scale c (avals y)) by (rewrite <- Ec, renumbered_id; reflexivity).
    assert (exists lo hi, avals y = [lo; hi] /\ a0 = c * lo /\ b0 = c * hi) as (lo & hi & Ev & -> & ->).
    { rewrite P in Ey. destruct (avals y) as [|lo [|hi [|? ?]]]; try discriminate. injection Ey as <- <-. exists lo, hi. auto. }
    assert (Q : lo < hi) by (apply Rmult_lt_reg_l with c; assumption).
    exists (x, BEdges (OArr (renumbered y (even lo hi n)))). split; [eapply rg_array; eassumption|]. cbn [fst snd].
    split; [split; [exact Gx|apply gb_edges, renumbered_good, Gy]|]. split; [reflexivity|].
    unfold phys_edges. cbn [phys_bins edges op_phys]. rewrite Ec, <- even_scale. apply (equal_bins_unique (c * lo) (c * hi) n); [apply even_bins, Hn|exact Et].
Qed.
Lemma all_placed_ranged : forall s axes ks ts, all_placed s axes ks ts ->
  exists sbs, Forall2 (fun a sk => ranged s a (fst sk) (snd sk)) axes (combine sbs ks) /\ length sbs = length ks /\ Forall2 (good_axis s) sbs ks
    /\ map fst sbs = map ax_data axes /\ map (fun sb => phys_edges (fst sb) (snd sb)) sbs = ts.
Proof.
  intros s axes ks ts H. induction H as [|a k t axes ks ts P _ IH].
  - exists []. repeat match goal with |- _ /\ _ => split end; try constructor.
  - destruct IH as (sbs & F & L & G & D & E). destruct (placed_ranged _ _ _ _ P) as (sb & R1 & G1 & D1 & E1).
    exists (sb :: sbs). cbn [combine map length]. repeat match goal with |- _ /\ _ => split end; try (constructor; assumption); congruence.
Qed.

(** The counts are those of the physical values in these bins. *)
Theorem C131_counts : forall s axes ks ts w kw, 0 < s -> all_placed s axes ks ts -> good_weights s w kw ->
  exists counts es, np_hist_counts_in axes w = Ok (counts, es) /\ Forall2 (good s) ks es /\ map phys es = ts
    /\ op_stands s kw counts (histv (map (fun a => phys (ax_data a)) axes) ts (all_weights (map plain_axis axes) w) false).
Proof.
  intros s axes ks ts w kw Hs H W. destruct (all_placed_ranged _ _ _ _ H) as (sbs & F & L & G & D & E).
  rewrite (C131_counts_array s axes sbs ks w F L). destruct (C69_counts_many_axes s sbs ks w kw Hs G W) as (counts & es & -> & Ge & Pe & C).
  exists counts, es. split; [reflexivity|]. split; [exact Ge|]. split; [rewrite Pe; exact E|]. rewrite E in C.
  assert (V : map (fun sb : carr * bins => phys (fst sb)) sbs = map (fun a => phys (ax_data a)) axes).
  { rewrite <- (map_map fst phys), D, map_map. reflexivity. }
  assert (Wt : all_weights (map plain_axis axes) w = all_weights sbs w).
  { unfold all_weights. destruct w; [reflexivity|]. f_equal.
    destruct sbs as [|[x b] sbs], axes as [|[[x' b'] r'] axes]; try discriminate D; [reflexivity|]. injection D as D _. unfold ax_data in D. cbn [fst] in D. subst. reflexivity. }
  rewrite V in C. rewrite Wt. exact C.
Qed.

(** [histogram2d] with density prepares the ranges with everything else: the same as with the edges. *)
Theorem C131_two_axes_density : forall s ax ay sx sy jx jy w kw, ranged s ax sx jx -> ranged s ay sy jy -> good_weights s w kw ->
  np_hist2d_density_in ax ay w = np_hist2d_density (fst sx) (fst sy) (snd sx) (snd sy) w.
Proof.
  intros s ax ay sx sy jx jy w kw Hx Hy W.
  assert (Cw : Forall conv (arrs [weights_op w])).
  { destruct W as [|o kw S]; [constructor|]. cbn [weights_op]. eapply sized_conv. constructor; [exact S|constructor]. }
  destruct (ranged_conv _ _ _ _ Hx) as (Cx & Cbx & Crx & Cbx' & Dx). destruct (ranged_conv _ _ _ _ Hy) as (Cy & Cby & Cry & Cby' & Dy).
  destruct (prepare_ranged _ _ _ _ Hx) as (px & qx & Px & Qx & _ & _ & Lx). destruct (prepare_ranged _ _ _ _ Hy) as (py & qy & Py & Qy & _ & _ & Ly).
  unfold np_hist2d_density_in, np_hist2d_density. rewrite Px, Py, <- !surjective_pairing, Qx, Qy. cbn [bind].
  set (A1 := [OArr (ax_data ax); OArr (ax_data ay)]). set (K1 := [bins_op (ax_bins ax); bins_op (ax_bins ay); range_op (ax_range ax); range_op (ax_range ay); weights_op w]).
  set (A2 := [OArr (fst sx); OArr (fst sy)]). set (K2 := [bins_op (snd sx); bins_op (snd sy); OPlain []; OPlain []; weights_op w]).
  assert (C1 : Forall conv (arrs (A1 ++ K1))).
  { unfold A1, K1. cbn [app arrs flat_map] in *. rewrite !app_nil_r in *. constructor; [exact Cx|]. constructor; [exact Cy|].
    apply Forall_app; split; [exact Cbx|]. apply Forall_app; split; [exact Cby|]. apply Forall_app; split; [exact Crx|]. apply Forall_app; split; [exact Cry|exact Cw]. }
  assert (C2 : Forall conv (arrs (A2 ++ K2))).
  { unfold A2, K2. cbn [app arrs flat_map] in *. rewrite !app_nil_r in *. constructor; [rewrite <- Dx; exact Cx|]. constructor; [rewrite <- Dy; exact Cy|].
    apply Forall_app; split; [exact Cbx'|]. apply Forall_app; split; [exact Cby'|exact Cw]. }
  destruct (prepare_conv _ _ C1) as (a1 & k1 & E1 & N1 & M1 & _). destruct (prepare_conv _ _ C2) as (a2 & k2 & E2 & N2 & M2 & _).
  assert (Fr : frame (A1 ++ K1) = frame (A2 ++ K2)).
  { unfold A1, A2, K1, K2, frame. destruct Hx as [x b k1' Hb|x rx xlo xhi nx k1' jx' Gx Gr Er Hl], Hy as [y c k2' Hc|y ry ylo yhi ny k2' jy' Gy Gs Es Hm];
      unfold ax_data, ax_bins, ax_range; cbn [fst snd bins_op range_op app arrs flat_map existsb]; try reflexivity.
    - destruct b as [|[z|z]], w as [[]|]; reflexivity.
    - destruct c as [|[z|z]]; cbn [bins_op flat_map app existsb]; try reflexivity. change (acm (renumbered rx (even xlo xhi nx))) with (acm rx).
      destruct (is_true (acm x)), (is_true (acm y)), (is_true (acm z)), (is_true (acm rx)); reflexivity. }
  assert (Co : comp_of (A1 ++ K1) = comp_of (A2 ++ K2)).
  { unfold A1, A2, K1, K2, comp_of. destruct Hx as [x b k1' Hb|x rx xlo xhi nx k1' jx' Gx Gr Er Hl], Hy as [y c k2' Hc|y ry ylo yhi ny k2' jy' Gy Gs Es Hm];
      unfold ax_data, ax_bins, ax_range; cbn [fst snd bins_op range_op app map forallb op_comp comp_eqb Bool.eqb andb]; try reflexivity.
    - rewrite ?andb_false_r; reflexivity.
    - rewrite ?andb_false_r; reflexivity.
    - rewrite ?andb_false_r; reflexivity. }
  rewrite E1, E2. cbn [bind k_args k_kw]. rewrite Fr, Co in *. set (fr := frame _) in *. clearbody fr. set (cp := comp_of _). clearbody cp.
  unfold A1, A2, K1, K2 in N1, N2, M1, M2.
  destruct a1 as [|x1 [|y1 [|? ?]]]; try discriminate. destruct a2 as [|x2 [|y2 [|? ?]]]; try discriminate.
  destruct k1 as [|bx1 [|by1 [|rx1 [|ry1 [|w1 [|? ?]]]]]]; try discriminate. destruct k2 as [|bx2 [|by2 [|rx2 [|ry2 [|w2 [|? ?]]]]]]; try discriminate.
  unfold numbers in *. cbn [map] in *. injection N1 as X1 Y1. injection N2 as X2 Y2. injection M1 as Bx1 By1 Rx1 Ry1 W1. injection M2 as Bx2 By2 _ _ W2.
  rewrite (ranged_edges s ax sx jx fr _ bx1 rx1 bx2 Hx Bx1 Rx1 Bx2), (ranged_edges s ay sy jy fr _ by1 ry1 by2 Hy By1 Ry1 By2). cbn [bind].
  rewrite X1, Y1, X2, Y2, Dx, Dy, Lx, Ly.
  assert (Wv : weights_of (length (avals (fst sx))) w w1 = weights_of (length (avals (fst sx))) w w2).
  { unfold weights_of. destruct w; [|reflexivity]. rewrite W1, W2. reflexivity. }
  rewrite Wv. reflexivity.
Qed.

Lemma relabelled : forall c ps qs, Forall2 (fun p q => forall v c, label v c p = label v c q) ps qs ->
  forall es : list (list R), map2 (fun e q => label e c q) es ps = map2 (fun e q => label e c q) es qs.
Proof. intros c ps qs F. induction F as [|p q ps qs Hp F IH]; intros [|e es]; try reflexivity. cbn [map2]. rewrite Hp. f_equal. apply IH. Qed.
(** [histogramdd] with density prepares neither edges nor ranges: the same as with the edges. *)
Theorem C131_many_axes_density : forall s axes sbs ks w, Forall2 (fun a sk => ranged s a (fst sk) (snd sk)) axes (combine sbs ks) -> length sbs = length ks ->
  np_histdd_density_in axes w = np_histdd_density sbs w.
Proof.
  intros s axes sbs ks w H L. destruct (prepare_all_ranged s axes sbs ks H L) as (ps & qs & P & Q & _ & _ & F & D).
  unfold np_histdd_density_in, np_histdd_density. rewrite P, Q. cbn [bind].
  rewrite <- (map_map ax_data OArr axes), D, map_map. destruct (prepare_kw _ _ _) as [p|]; [|reflexivity]. cbn [bind].
  assert (E : forall vs, all_ok (map2 (fun v a => edges_in v (nbins_of (ax_bins a) (bins_op (ax_bins a))) (range_numbers (ax_range a) (range_op (ax_range a)))) vs axes)
      = Ok (map2 (fun v (sb : carr * bins) => edges v (nbins_of (snd sb) (bins_op (snd sb)))) vs sbs)).
  { clear P Q F D. revert sbs ks H L. induction axes as [|a axes IH]; intros [|sb sbs] [|k ks] H L vs; try discriminate L; cbn [combine] in H; inversion H as [|? ? ? ? R1 R2]; subst.
    - destruct vs; reflexivity.
    - injection L as L. destruct vs as [|v vs]; [reflexivity|]. cbn [map2 all_ok]. cbn [fst snd] in R1.
      assert (E1 : edges_in v (nbins_of (ax_bins a) (bins_op (ax_bins a))) (range_numbers (ax_range a) (range_op (ax_range a))) = Ok (edges v (nbins_of (snd sb) (bins_op (snd sb))))).
      { destruct R1 as [x b k1 _|x y lo hi n k1 j Gx Gy Ey Hl]; unfold ax_bins, ax_range; cbn [fst snd range_numbers range_op bins_op nbins_of op_vals].
        - apply edges_in_none.
        - rewrite Ey. pose proof (edges_in_scaled v n 1 lo hi Rlt_0_1 Hl) as Z1. rewrite !scale_1 in Z1. exact Z1. }
      rewrite E1. cbn [bind]. rewrite (IH sbs ks R2 L). reflexivity. }
  rewrite E. cbn [bind]. destruct (h_multiply (k_cfs p)) as [cs|]; [|reflexivity]. cbn [bind]. destruct (h_reciprocal cs) as [inv|]; [|reflexivity]. cbn [bind].
  assert (Cn : count_points (map plain_axis axes) = count_points sbs).
  { destruct axes as [|[[x b] r] axes], sbs as [|[x' b'] sbs]; try discriminate D; [reflexivity|]. injection D as D _. unfold ax_data in D. cbn [fst] in D. subst. reflexivity. }
  rewrite Cn. match goal with |- bind ?m _ = _ => destruct m as [cc|]; [|reflexivity] end. cbn [bind].
  destruct axes as [|a axes], sbs as [|[x0 b0] sbs]; try discriminate D; [reflexivity|]. injection D as D0 _. cbn [fst] in D0. rewrite D0.
  f_equal. f_equal. apply relabelled, F.
Qed.

(** So they are right for ranges in the frame of the whole call, but not for others: one comoving value of 1 and the physical
    range from 1 to 3/2 at a scale factor of 2; the value lies outside of the range, but is found in its only bin. *)
Theorem C131_many_axes_density_refuted : exists s x y counts es, 0 < s /\ good s 1 x /\ good s 1 y /\ phys x = [2] /\ phys y = [1; 3 / 2]
  /\ np_histdd_density_in [(x, BNum 1, RArr y)] None = Ok (OArr counts, es) /\ phys counts = [1] /\ ~ (1 <= 2 <= 3 / 2).
Proof.
  assert (C0 : Forall conv (arrs ([OArr (cmv 2 1 [1])] ++ [OPlain []; OArr (phy 2 1 [1; 3 / 2])]))).
  { cbn [app arrs flat_map]. constructor; [exists 2, 1; apply good_cmv|]. constructor; [exists 2, 1; apply good_phy|constructor]. }
  destruct (prepare_conv _ _ C0) as (a0 & k0 & P0 & _).
  exists 2, (cmv 2 1 [1]), (phy 2 1 [1; 3 / 2]). do 2 eexists. split; [lra|]. split; [apply good_cmv|]. split; [apply good_phy|].
  split; [unfold phys, cmv, lab; cbn [acm acf avals map]; rewrite rp21; f_equal; lra|]. split; [reflexivity|].
  assert (T : Rleb 1 1 = true) by (apply Rleb_true; lra). assert (T2 : Rleb 1 (3 / 2) = true) by (apply Rleb_true; lra).
  split; [|split].
  - unfold np_histdd_density_in. cbn [map all_ok]. unfold prepare_axis_in. cbn [ax_data ax_bins ax_range fst snd bins_op range_op].
    unfold ax_data, ax_bins, ax_range. cbn [fst snd bins_op range_op]. rewrite P0. cbn [bind].
    change (prepare_kw true [OArr (cmv 2 1 [1])] [OPlain []; OPlain []; weights_op None])
      with (Ok (mkprepk [OArr (cmv 2 1 [1])] [OPlain []; OPlain []; OPlain []] [lab 2 1] [None; None; None] (Some true) true CNone false)).
    cbn [bind k_args k_cfs k_kw numbers map map2 op_vals cmv avals nbins_of range_numbers phy all_ok edges_in fst snd bins_op range_op].
    replace (Rltb (3 / 2) 1) with false by (symmetry; destruct (Rltb (3 / 2) 1) eqn:E; [apply Rltb_true in E; lra|reflexivity]).
    replace (Reqb 1 (3 / 2)) with false by (symmetry; unfold Reqb; destruct (Req_EM_T 1 (3 / 2)); [lra|reflexivity]). cbn [bind].
    change (h_multiply [lab 2 1]) with (Ok (lab 2 1)). cbn [bind]. change (h_reciprocal (lab 2 1)) with (Ok (lcf 2 (1 * -1))). cbn [bind]. reflexivity.
  - unfold label. cbn [k_cm k_vt k_comp]. rewrite good_phys_label.
    replace (even 1 (3 / 2) 1) with [1; 3 / 2] by (unfold even; cbn [seq map INR]; f_equal; [field|f_equal; field]).
    cbn [map plain_axis count_points fst weights_of length cmv avals repeat nth]. unfold histv. rewrite map2_map_in, grid1, !map_map. cbn [cells map].
    rewrite !counted_cons. unfold in_cell. rewrite T, T2. cbn [andb]. unfold counted. cbn [length seq map]. change (sumR []) with 0.
    unfold volume. cbn [map width]. rewrite !prodR1. change (sumR [1 + 0]) with (1 + 0 + 0). unfold ffac. cbn [is_true scale map].
    replace (1 * -1) with (- (1)) by lra. rewrite pow_neg, rp21. f_equal. field.
  - lra.
Qed.

(** The edges of [histogram_bin_edges] with a range are equal bins between its physical ends, whatever the data. *)
Theorem C131_bin_edges : forall s k x y a b n, 0 < s -> good s k x -> good s k y -> phys y = [a; b] -> a < b -> (0 < n)%nat ->
  exists e, np_bin_edges_in x (BNum n) (RArr y) = Ok e /\ good s k e /\ equal_bins a b n (phys e).
Proof.
  intros s k x y a b n Hs Gx Gy Ey Hl Hn.
  assert (C1 : Forall conv (arrs ([OArr x] ++ [OPlain []; OArr y; OPlain []]))).
  { cbn [app arrs flat_map]. constructor; [exists s, k; exact Gx|]. constructor; [exists s, k; exact Gy|constructor]. }
  unfold np_bin_edges_in. cbn [bins_op range_op]. destruct (prepare_conv _ _ C1) as (a1 & k1 & -> & A1 & K1 & _). cbn [bind].
  destruct (frame_some x [OPlain []; OArr y; OPlain []]) as (fr & F). change (OArr x :: [OPlain []; OArr y; OPlain []]) with ([OArr x] ++ [OPlain []; OArr y; OPlain []]) in F.
  rewrite F in *. rewrite (g_cf _ _ _ Gx). fold (lcf s k). rewrite keep_ok. cbn [bind k_args k_kw].
  destruct a1 as [|x1 [|? ?]]; try discriminate. destruct k1 as [|b1 [|r1 [|d1 [|? ?]]]]; try discriminate.
  unfold numbers in K1. cbn [map] in K1. injection K1 as _ Er _. change (if fr then comov y else phys y) with (in_frame (Some fr) (OArr y)) in Er. cbn [range_numbers]. rewrite Er.
  pose proof (phys_ffac s k (OArr y) (Some fr) ltac:(constructor; exact Gy)) as Pf. cbn [op_phys] in Pf. rewrite Ey in Pf.
  set (v := in_frame (Some fr) (OArr y)) in *. clearbody v. pose proof (ffac_pos s k (Some fr)) as Hf. set (f := ffac s k (Some fr)) in *.
  destruct v as [|lo [|hi [|? ?]]]; try discriminate. cbn [scale map] in Pf. injection Pf as -> ->.
  assert (Q : lo < hi) by (apply Rmult_lt_reg_l with f; assumption).
  pose proof (edges_in_scaled (op_vals x1) n 1 lo hi Rlt_0_1 Q) as Z1. rewrite !scale_1 in Z1. rewrite Z1. cbn [bind].
  eexists. split; [reflexivity|]. unfold label. cbn [k_cm k_vt k_comp]. split; [apply good_label|]. rewrite good_phys_label. fold f.
  rewrite <- even_scale. apply even_bins, Hn.
Qed.

(** One axis whose range is in the wrong order or has not two values makes the whole call fail. *)
Definition bad_range (y : carr) : Prop := length (avals y) <> 2%nat \/ exists lo hi, avals y = [lo; hi] /\ hi < lo.
Lemma bad_range_edges : forall s k j x y n p, good s k x -> good s j y -> bad_range y -> prepare_axis_in (x, BNum n, RArr y) = Ok p ->
  axis_edges_in (x, BNum n, RArr y) p = Err ValueError.
Proof.
  intros s k j x y n p Gx Gy B E. unfold prepare_axis_in, ax_data, ax_bins, ax_range in E. cbn [fst snd bins_op range_op] in E.
  assert (C1 : Forall conv (arrs ([OArr x] ++ [OPlain []; OArr y]))).
  { cbn [app arrs flat_map]. constructor; [exists s, k; exact Gx|]. constructor; [exists s, j; exact Gy|constructor]. }
  destruct (prepare_conv _ _ C1) as (a1 & k1 & Q & A1 & K1 & _). rewrite Q in E. injection E as <-. clear Q A1. set (fr := frame _) in *. clearbody fr.
  unfold axis_edges_in, ax_bins, ax_range. cbn [fst snd k_kw]. destruct k1 as [|b1 [|r1 [|? ?]]]; try discriminate.
  unfold numbers in K1. cbn [map] in K1. injection K1 as _ Er. cbn [range_numbers nbins_of]. rewrite Er.
  destruct (framed s j y fr Gy) as (c & Hc & Ec). specialize (Ec (avals y)). rewrite renumbered_id in Ec. rewrite Ec.
  destruct B as [B|(lo & hi & -> & Hl)].
  - destruct (avals y) as [|u [|u' [|? ?]]]; try reflexivity. cbn [length] in B. lia.
  - cbn [scale map edges_in]. assert (c * hi < c * lo) by (apply Rmult_lt_compat_l; assumption).
    replace (Rltb (c * hi) (c * lo)) with true; [reflexivity|]. symmetry. apply Rltb_true. assumption.
Qed.
Theorem C131_bad_range : forall s before after sbs ks k j x y n w kw, 0 < s ->
  Forall2 (fun a sk => ranged s a (fst sk) (snd sk)) (before ++ after) (combine sbs ks) -> length sbs = length ks ->
  good s k x -> good s j y -> bad_range y -> good_weights s w kw ->
  np_hist_counts_in (before ++ (x, BNum n, RArr y) :: after) w = Err ValueError.
Proof.
  intros s before after sbs ks k j x y n w kw Hs H L Gx Gy B W.
  assert (R1 : forall a, In a (before ++ after) -> exists p e, prepare_axis_in a = Ok p /\ axis_edges_in a p = Ok e).
  { clear - H. intros a Ha. revert sbs ks H. induction (before ++ after) as [|a' l IH]; intros sbs ks H; [destruct Ha|].
    inversion H as [|? [sb k] ? m R1 R2]; subst. destruct sbs as [|sb' sbs]; [discriminate|]. destruct ks as [|k' ks]; [discriminate|]. cbn [combine] in *. 
    destruct Ha as [->|Ha].
    - cbn [fst snd] in R1. destruct (prepare_ranged _ _ _ _ R1) as (p & q & P & _ & E & _). exists p. eexists. split; [exact P|exact E].
    - match goal with Q : _ :: _ = _ :: _ |- _ => injection Q as _ _ -> end. apply (IH Ha _ _ R2). }
  assert (P0 : exists p, prepare_axis_in (x, BNum n, RArr y) = Ok p).
  { unfold prepare_axis_in, ax_data, ax_bins, ax_range. cbn [fst snd bins_op range_op].
    assert (C1 : Forall conv (arrs ([OArr x] ++ [OPlain []; OArr y]))).
    { cbn [app arrs flat_map]. constructor; [exists s, k; exact Gx|]. constructor; [exists s, j; exact Gy|constructor]. }
    destruct (prepare_conv _ _ C1) as (a1 & k1 & Q & _). eexists. exact Q. }
  destruct P0 as (p0 & P0). pose proof (bad_range_edges s k j x y n p0 Gx Gy B P0) as E0.
  assert (A : exists ps, all_ok (map prepare_axis_in after) = Ok ps).
  { assert (R2 : forall a, In a after -> exists p, prepare_axis_in a = Ok p) by (intros a Ha; destruct (R1 a (in_or_app _ _ _ (or_intror Ha))) as (p & _ & P & _); exists p; exact P).
    clear - R2. induction after as [|a l IH]; [exists []; reflexivity|]. destruct (R2 a (or_introl eq_refl)) as (p & P). destruct IH as (ps & Q); [intros; apply R2; right; assumption|].
    exists (p :: ps). cbn [map all_ok]. rewrite P, Q. reflexivity. }
  assert (M : exists ps, all_ok (map prepare_axis_in (before ++ (x, BNum n, RArr y) :: after)) = Ok ps
      /\ all_ok (map2 axis_edges_in (before ++ (x, BNum n, RArr y) :: after) ps) = Err ValueError).
  { assert (R2 : forall a, In a before -> exists p e, prepare_axis_in a = Ok p /\ axis_edges_in a p = Ok e) by (intros a Ha; apply R1, in_or_app; left; exact Ha).
    clear R1 H. destruct A as (ps & A). induction before as [|a l IH].
    - exists (p0 :: ps). cbn [app map all_ok map2]. rewrite P0, A, E0. split; reflexivity.
    - destruct IH as (qs & Q1 & Q2); [intros; apply R2; right; assumption|]. destruct (R2 a (or_introl eq_refl)) as (p & e & P & E).
      exists (p :: qs). cbn [app map all_ok map2]. rewrite P, E, Q1, Q2. split; reflexivity. }
  destruct M as (ps & M1 & M2). unfold np_hist_counts_in. rewrite M1. cbn [bind].
  assert (Cw : Forall conv (arrs ([] ++ [weights_op w]))).
  { destruct W as [|o kw S]; [constructor|]. cbn [weights_op app]. eapply sized_conv. constructor; [exact S|constructor]. }
  destruct (prepare_conv [] _ Cw) as (a1 & k1 & -> & _). cbn [bind]. rewrite M2. reflexivity.
Qed.

(** A case: comoving and physical data, one axis with a physical range, the other with two bins between its values. *)
Example C131_case :
  all_placed 2 [(cmv 2 1 [1; 3], BNum 2, RArr (phy 2 1 [0; 4])); (phy 2 3 [5; 6], BNum 2, RNone)] [1; 3] [[0; 2; 4]; phys_edges (phy 2 3 [5; 6]) (BNum 2)]
  /\ (exists sb, ranged 2 (cmv 2 1 [1; 3], BNum 2, RArr (phy 2 1 [0; 4])) sb 1) /\ bad_range (phy 2 1 [4; 0]) /\ bad_range (phy 2 1 [4]) /\ ~ bad_range (phy 2 1 [0; 4]).
Proof.
  assert (P : placed 2 (cmv 2 1 [1; 3], BNum 2, RArr (phy 2 1 [0; 4])) 1 [0; 2; 4]).
  { apply (pl_array 2 _ _ 0 4); [apply good_cmv|apply good_phy|reflexivity|lra|lia|].
    split; [reflexivity|]. split; [reflexivity|]. split; [reflexivity|]. intros [|[|i]] Hi; cbn [nth INR]; [lra|lra|lia]. }
  split; [|split; [|split; [|split]]].
  - constructor; [exact P|]. constructor; [|constructor]. constructor. split; [apply good_phy|]. constructor.
    unfold spread, phys, phy, lab. cbn [acm acf avals fst]. exists 5, 6. cbn. repeat split; auto. lra.
  - destruct (placed_ranged _ _ _ _ P) as (sb & Rg & _). exists sb. exact Rg.
  - right. exists 4, 0. split; [reflexivity|lra].
  - left. cbn. lia.
  - intros [N|(lo & hi & E & H)]; [cbn in N; lia|]. cbn in E. injection E as <- <-. lra.
Qed.

Print Assumptions C131_without.
Print Assumptions C131_counts_array.
Print Assumptions C131_counts.
Print Assumptions C131_two_axes_density.
Print Assumptions C131_many_axes_density.
Print Assumptions C131_many_axes_density_refuted.
Print Assumptions C131_bin_edges.
Print Assumptions C131_bad_range.
Print Assumptions C131_case.

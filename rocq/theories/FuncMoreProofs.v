(** Lemmas about lists of arrays, writing, averages and histograms. *)
From Coq Require Import List ZArith Bool Reals Lra Lia.
From Verif Require Import Base BaseLemmas CosmoModel CosmoSpec CosmoProofs FuncModel FuncSpec FuncProofs.
Import ListNotations.
Open Scope R_scope.

(** * Histograms and scaling *)
Definition cscl (c : R) (x : R * R * bool) : R * R * bool := let '(a, b, l) := x in (c * a, c * b, l).
Lemma Rleb_scale : forall c x y, 0 < c -> Rleb (c * x) (c * y) = Rleb x y.
Proof.
  intros c x y H. unfold Rleb. destruct (Rle_dec x y) as [L|L]; destruct (Rle_dec (c * x) (c * y)) as [M|M]; try reflexivity.
  - exfalso. apply M. apply Rmult_le_compat_l; lra.
  - exfalso. apply L. apply Rmult_le_reg_l with c; assumption.
Qed.
Lemma Rltb_scale : forall c x y, 0 < c -> Rltb (c * x) (c * y) = Rltb x y.
Proof.
  intros c x y H. unfold Rltb. destruct (Rlt_dec x y) as [L|L]; destruct (Rlt_dec (c * x) (c * y)) as [M|M]; try reflexivity.
  - exfalso. apply M. apply Rmult_lt_compat_l; lra.
  - exfalso. apply L. apply Rmult_lt_reg_l with c; assumption.
Qed.
Lemma Reqb_scale : forall c x y, 0 < c -> Reqb (c * x) (c * y) = Reqb x y.
Proof.
  intros c x y H. unfold Reqb. destruct (Req_EM_T x y) as [L|L]; destruct (Req_EM_T (c * x) (c * y)) as [M|M]; try reflexivity.
  - exfalso. apply M. rewrite L. reflexivity.
  - exfalso. apply L. apply Rmult_eq_reg_l with c; [exact M|lra].
Qed.
Lemma in_cell_scale : forall c k x, 0 < c -> in_cell (cscl c k) (c * x) = in_cell k x.
Proof.
  intros c [[a b] l] x H. unfold in_cell, cscl. rewrite Rleb_scale by exact H.
  destruct l; rewrite ?Rleb_scale, ?Rltb_scale by exact H; reflexivity.
Qed.
Lemma cells_scale : forall c e, cells (scale c e) = map (cscl c) (cells e).
Proof.
  intros c e. induction e as [|a [|b t] IH]; try reflexivity.
  change (cells (scale c (a :: b :: t)))
    with ((c * a, c * b, match scale c t with [] => true | _ => false end) :: cells (scale c (b :: t))).
  rewrite IH. change (cells (a :: b :: t)) with ((a, b, match t with [] => true | _ => false end) :: cells (b :: t)).
  cbn [map]. f_equal. unfold cscl. destruct t; reflexivity.
Qed.
Lemma width_scale : forall c k, width (cscl c k) = c * width k.
Proof. intros c [[a b] l]. unfold width, cscl. ring. Qed.

Lemma grid_scale : forall cs es, length cs = length es ->
  grid (map2 scale cs es) = map (map2 cscl cs) (grid es).
Proof.
  induction cs as [|c cs IH]; intros [|e es] L; try discriminate L; [reflexivity|].
  injection L as L. cbn [map2 grid]. rewrite cells_scale, IH by exact L.
  induction (cells e) as [|k t IHt]; [reflexivity|]. cbn [map flat_map]. rewrite IHt, map_app. f_equal.
  rewrite !map_map. apply map_ext. intro; reflexivity.
Qed.
Lemma grid_length : forall es g, In g (grid es) -> length g = length es.
Proof.
  induction es as [|e es IH]; intros g H; cbn [grid] in H.
  - destruct H as [<-|[]]. reflexivity.
  - apply in_flat_map in H. destruct H as (k & _ & H). apply in_map_iff in H. destruct H as (g' & <- & H).
    cbn. f_equal. apply IH. exact H.
Qed.
Lemma inside_scale : forall cs g vs i, Forall (fun c => 0 < c) cs ->
  length cs = length vs -> length g = length vs ->
  inside (map2 cscl cs g) (map2 scale cs vs) i = inside g vs i.
Proof.
  induction cs as [|c cs IH]; intros [|k g] [|v vs] i P L G; try discriminate L; try discriminate G; [reflexivity|].
  injection L as L. injection G as G. inversion P; subst. cbn [map2 inside].
  rewrite nth_scale, in_cell_scale, IH by assumption. reflexivity.
Qed.
Lemma volume_scale : forall cs g, length cs = length g -> volume (map2 cscl cs g) = prodR cs * volume g.
Proof.
  induction cs as [|c cs IH]; intros [|k g] L; try discriminate L.
  - unfold volume, prodR. cbn. ring.
  - injection L as L. unfold volume in *. cbn [map2 map]. unfold prodR in *. cbn [fold_right].
    rewrite IH by exact L. rewrite width_scale. ring.
Qed.
Lemma sumR_map_scale : forall A c (g h : A -> R) l, (forall x, g x = c * h x) ->
  sumR (map g l) = c * sumR (map h l).
Proof.
  intros A c g h l H. induction l as [|a l IH]; cbn [map]; unfold sumR in *; cbn [fold_right]; [ring|].
  rewrite IH, H. ring.
Qed.
Lemma counted_scale : forall cs g vs d w, Forall (fun c => 0 < c) cs ->
  length cs = length vs -> length g = length vs ->
  counted (map2 scale cs vs) (scale d w) (map2 cscl cs g) = d * counted vs w g.
Proof.
  intros cs g vs d w P L G. unfold counted. rewrite scale_length. apply sumR_map_scale. intro i.
  rewrite inside_scale by assumption. rewrite nth_scale. destruct (inside g vs i); ring.
Qed.
Lemma counts_scale : forall cs es vs d w, Forall (fun c => 0 < c) cs ->
  length cs = length vs -> length cs = length es ->
  map (counted (map2 scale cs vs) (scale d w)) (grid (map2 scale cs es))
  = scale d (map (counted vs w) (grid es)).
Proof.
  intros cs es vs d w P L E. rewrite grid_scale by exact E. unfold scale at 3. rewrite !map_map.
  apply map_ext_in. intros g H. apply counted_scale; try assumption.
  rewrite (grid_length es g H). congruence.
Qed.
Lemma sumR_scale : forall c l, sumR (scale c l) = c * sumR l.
Proof. intros. apply sum_scale. Qed.
Lemma map2_map_in : forall A B C (f : A -> B -> C) (g : B -> A) l, map2 f (map g l) l = map (fun x => f (g x) x) l.
Proof. induction l as [|a l IH]; cbn; [reflexivity|]. rewrite IH. reflexivity. Qed.

(** Counts scale as the weights; densities as the inverse volume, the weights
    cancelling. *)
Lemma histv_scale : forall cs es vs d w, Forall (fun c => 0 < c) cs -> 0 < d ->
  length cs = length vs -> length cs = length es ->
  histv (map2 scale cs vs) (map2 scale cs es) (scale d w) false = scale d (histv vs es w false)
  /\ histv (map2 scale cs vs) (map2 scale cs es) (scale d w) true = scale (/ prodR cs) (histv vs es w true).
Proof.
  intros cs es vs d w P D L E.
  pose proof (counts_scale cs es vs d w P L E) as C.
  unfold histv. split; [exact C|].
  rewrite C, sumR_scale. rewrite grid_scale by exact E.
  set (tot := sumR (map (counted vs w) (grid es))). clearbody tot. clear C.
  assert (G : forall g, In g (grid es) -> length cs = length g).
  { intros g H. rewrite (grid_length es g H). exact E. }
  revert G. generalize (grid es). intros gr G.
  induction gr as [|g gr IH]; [reflexivity|].
  unfold scale in *. cbn [map map2]. rewrite IH by (intros; apply G; right; assumption). f_equal.
  rewrite volume_scale by (apply G; left; reflexivity).
  unfold Rdiv. rewrite !Rinv_mult.
  replace (d * counted vs w g * (/ prodR cs * / volume g) * (/ d * / tot))
    with ((d * / d) * (/ prodR cs * (counted vs w g * / volume g * / tot))) by ring.
  rewrite Rinv_r by lra. ring.
Qed.

Lemma minl_cons : forall a b t, minl (a :: b :: t) = minl (Rmin a b :: t).
Proof. reflexivity. Qed.
Lemma maxl_cons : forall a b t, maxl (a :: b :: t) = maxl (Rmax a b :: t).
Proof. reflexivity. Qed.
Lemma minl_scale : forall c v, 0 < c -> minl (scale c v) = c * minl v.
Proof.
  intros c [|a v] H; [cbn; ring|]. unfold scale. cbn [map minl]. revert a.
  induction v as [|b v IH]; intro a; cbn [map fold_left]; [reflexivity|].
  rewrite <- IH. rewrite Rmin_scale by exact H. reflexivity.
Qed.
Lemma maxl_scale : forall c v, 0 < c -> v <> [] -> maxl (scale c v) = c * maxl v.
Proof.
  intros c [|a v] H N; [congruence|]. unfold scale. cbn [map maxl]. clear N. revert a.
  induction v as [|b v IH]; intro a; cbn [map fold_left]; [reflexivity|].
  rewrite <- IH. rewrite Rmax_scale by exact H. reflexivity.
Qed.
Lemma minl_le : forall v a, In a v -> minl v <= a.
Proof.
  intros [|x v] a H; [destruct H|]. cbn [minl].
  assert (G : forall v x, fold_left Rmin v x <= x /\ forall a, In a v -> fold_left Rmin v x <= a).
  { clear. induction v as [|b v IH]; intro x; cbn [fold_left]; [split; [lra|intros a []]|].
    destruct (IH (Rmin x b)) as [I1 I2]. split; [pose proof (Rmin_l x b); lra|].
    intros a [<-|H]; [pose proof (Rmin_r x b); lra|auto]. }
  destruct H as [<-|H]; [apply (proj1 (G v x))|apply (proj2 (G v x)); exact H].
Qed.
Lemma maxl_ge : forall v a, In a v -> a <= maxl v.
Proof.
  intros [|x v] a H; [destruct H|]. cbn [maxl].
  assert (G : forall v x, x <= fold_left Rmax v x /\ forall a, In a v -> a <= fold_left Rmax v x).
  { clear. induction v as [|b v IH]; intro x; cbn [fold_left]; [split; [lra|intros a []]|].
    destruct (IH (Rmax x b)) as [I1 I2]. split; [pose proof (Rmax_l x b); lra|].
    intros a [<-|H]; [pose proof (Rmax_r x b); lra|auto]. }
  destruct H as [<-|H]; [apply (proj1 (G v x))|apply (proj2 (G v x)); exact H].
Qed.
Lemma spread_minmax : forall v, spread v -> Reqb (minl v) (maxl v) = false /\ v <> [].
Proof.
  intros v (a & b & Ha & Hb & N). split; [|intros ->; destruct Ha].
  apply Reqb_false. intro E. apply N.
  pose proof (minl_le v a Ha). pose proof (maxl_ge v a Ha). pose proof (minl_le v b Hb). pose proof (maxl_ge v b Hb). lra.
Qed.
Lemma spread_scale : forall c v, 0 < c -> spread (scale c v) -> spread v.
Proof.
  intros c v H (a & b & Ha & Hb & N). unfold scale in *. apply in_map_iff in Ha, Hb.
  destruct Ha as (a' & <- & Ha). destruct Hb as (b' & <- & Hb).
  exists a', b'. split; [exact Ha|]. split; [exact Hb|]. intro E. apply N. rewrite E. reflexivity.
Qed.
Lemma even_scale : forall c lo hi n, even (c * lo) (c * hi) n = scale c (even lo hi n).
Proof. intros. unfold even, scale. rewrite map_map. apply map_ext. intro i. unfold Rdiv. ring. Qed.
Lemma edges_scale_num : forall c v n, 0 < c -> spread v ->
  edges (scale c v) (NNum n) = scale c (edges v (NNum n)).
Proof.
  intros c v n H S. destruct (spread_minmax v S) as [E N]. unfold edges.
  rewrite minl_scale, maxl_scale, Reqb_scale, E by assumption. apply even_scale.
Qed.

(** One axis: the common factor of data and edges. *)
Definition ffac (s k : R) (fr : option bool) : R := if is_true fr then Rpower s k else 1.
Lemma ffac_pos : forall s k fr, 0 < ffac s k fr.
Proof. intros. unfold ffac. destruct (is_true fr); [apply Rpower_pos|lra]. Qed.
Lemma phys_ffac : forall s k o fr, sized s o k -> op_phys o = scale (ffac s k fr) (in_frame fr o).
Proof.
  intros s k o fr H. unfold ffac, in_frame. destruct fr as [[|]|]; cbn [is_true]; try (rewrite scale_1; reflexivity).
  destruct H as [x k G|v]; cbn [op_phys op_comov]; [apply phys_comov; exact G|]. rewrite Rpower_0r, scale_1. reflexivity.
Qed.
Lemma good_phys_label : forall s k v b cp, phys (mkarr v (lcf s k) (Some b) true cp) = scale (ffac s k (Some b)) v.
Proof. intros. unfold phys, lcf, ffac. destruct b; cbn [acm acf is_true avals]; [reflexivity|rewrite scale_1; reflexivity]. Qed.
Lemma good_label : forall s k v b cp, good s k (mkarr v (lcf s k) (Some b) true cp).
Proof. intros. constructor; cbn; (reflexivity || discriminate). Qed.
Lemma frame_some : forall x l, exists b, frame (OArr x :: l) = Some b.
Proof. intros. unfold frame. cbn [arrs flat_map app]. eexists. reflexivity. Qed.

Lemma edges_frame : forall s k x b fr, good s k x -> good_bins s k x b -> 0 < s ->
  phys_edges x b = scale (ffac s k fr) (edges (in_frame fr (OArr x)) (nbins_of b (OPlain (in_frame fr (bins_op b))))).
Proof.
  intros s k x b fr G B Hs. unfold phys_edges. destruct B as [n S|y Gy]; cbn [phys_bins nbins_of bins_op op_vals].
  - pose proof (phys_ffac s k (OArr x) fr (sz_arr s x k G)) as E. cbn [op_phys] in E.
    rewrite E. apply edges_scale_num; [apply ffac_pos|].
    rewrite E in S. eapply spread_scale; [|exact S]. apply ffac_pos.
  - cbn [edges]. apply (phys_ffac s k (OArr y) fr). constructor. exact Gy.
Qed.
Lemma sized_bins : forall s k x b, good_bins s k x b -> exists j, sized s (bins_op b) j.
Proof. intros s k x b [n _|y G]; [exists 0; constructor|exists k; constructor; exact G]. Qed.
Lemma sized_weights : forall s w k, good_weights s w k -> sized s (weights_op w) k.
Proof. intros s w k [|o j H]; [constructor|exact H]. Qed.
Lemma weights_frame : forall s x w k fr, good_weights s w k ->
  phys_weights x w = scale (ffac s k fr) (weights_of (length (avals x)) w (OPlain (in_frame fr (weights_op w)))).
Proof.
  intros s x w k fr [|o j H]; cbn [phys_weights weights_of weights_op op_vals].
  - rewrite phys_length. unfold ffac. rewrite Rpower_0r. destruct (is_true fr); rewrite scale_1; reflexivity.
  - apply phys_ffac. exact H.
Qed.
Lemma sized_conv1 : forall s o k, sized s o k -> Forall conv (arrs [o]).
Proof. intros s o k H. apply (sized_conv s [o] [k]). constructor; [exact H|constructor]. Qed.
Lemma nbins_of_vals : forall b o o', op_vals o = op_vals o' -> nbins_of b o = nbins_of b o'.
Proof. intros [n|p] o o' E; cbn; congruence. Qed.
Lemma weights_of_vals : forall n w o o', op_vals o = op_vals o' -> weights_of n w o = weights_of n w o'.
Proof. intros n [p|] o o' E; cbn; congruence. Qed.

Lemma numbers1 : forall l v, numbers l = [v] -> exists o, l = [o] /\ op_vals o = v.
Proof. intros [|o [|p l]] v H; try discriminate H. injection H as H. eauto. Qed.
Lemma scale_map2_1 : forall c v, [scale c v] = map2 scale [c] [v].
Proof. reflexivity. Qed.
Lemma prodR1 : forall c, prodR [c] = c.
Proof. intros; unfold prodR; cbn; ring. Qed.
Lemma keep_ok : forall c, keep c = Ok c.
Proof. reflexivity. Qed.

(** The preparation and the counts of [np.histogram]. *)
Lemma histogram_prep : forall s k kw x b w density, 0 < s ->
  good s k x -> good_bins s k x b -> good_weights s w kw ->
  exists bb cp e p cnt wv,
    prepare_kw true [OArr x] [bins_op b; OPlain []; OPlain []; weights_op w] = Ok p
    /\ k_cm p = Some bb /\ k_vt p = true /\ k_comp p = cp
    /\ phys_edges x b = scale (ffac s k (Some bb)) e
    /\ phys_weights x w = scale (ffac s kw (Some bb)) wv
    /\ cnt = histv [in_frame (Some bb) (OArr x)] [e] wv density
    /\ np_histogram x b density w =
         (do ccnt <- (match w with
                      | None => Ok (if density then lcf s (k * -1) else None)
                      | Some _ => do cw <- keep (op_cf (weights_op w));
                                  if density then h_multiply2 cw (lcf s (k * -1)) else Ok cw end);
          Ok (counts_label w density cnt ccnt p, label e (lcf s k) p)).
Proof.
  intros s k kw x b w density Hs G B W.
  destruct (sized_bins s k x b B) as (kb & Sb). pose proof (sized_weights s w kw W) as Sw.
  set (kwl := [bins_op b; OPlain []; OPlain []; weights_op w]).
  assert (C : Forall conv (arrs ([OArr x] ++ kwl))).
  { apply (sized_conv s _ (k :: kb :: 0 :: 0 :: kw :: nil)). unfold kwl. cbn [app].
    repeat (constructor; try assumption). }
  destruct (prepare_conv [OArr x] kwl C) as (args' & kw' & P & Na & Nk & _).
  destruct (frame_some x kwl) as (bb & F). change (OArr x :: kwl) with ([OArr x] ++ kwl) in F.
  rewrite F in P, Na, Nk.
  destruct (numbers1 _ _ Na) as (a' & -> & Ea).
  unfold kwl in Nk. cbn [map] in Nk.
  destruct kw' as [|b' [|c1 [|c2 [|w' [|? ?]]]]]; try discriminate Nk.
  unfold numbers in Nk. cbn [map] in Nk. injection Nk as Eb _ _ Ew.
  eexists bb, _, (edges (in_frame (Some bb) (OArr x)) (nbins_of b (OPlain (in_frame (Some bb) (bins_op b))))),
    _, _, (weights_of (length (avals x)) w (OPlain (in_frame (Some bb) (weights_op w)))).
  split; [exact P|]. split; [reflexivity|]. split; [reflexivity|]. split; [reflexivity|].
  split; [apply edges_frame; assumption|]. split; [apply weights_frame; assumption|].
  split; [reflexivity|].
  unfold np_histogram. fold kwl. rewrite P. cbn [bind k_args k_kw].
  rewrite (g_cf _ _ _ G). fold (lcf s k). rewrite keep_ok. unfold h_reciprocal. rewrite h_power_ok. cbn [bind].
  rewrite Ea. rewrite (nbins_of_vals b b' (OPlain (in_frame (Some bb) (bins_op b)))) by exact Eb.
  rewrite (weights_of_vals _ w w' (OPlain (in_frame (Some bb) (weights_op w)))) by exact Ew.
  reflexivity.
Qed.

Lemma histv1_scale : forall c d e v w, 0 < c -> 0 < d ->
  histv [scale c v] [scale c e] (scale d w) false = scale d (histv [v] [e] w false)
  /\ histv [scale c v] [scale c e] (scale d w) true = scale (/ c) (histv [v] [e] w true).
Proof.
  intros c d e v w Hc Hd.
  destruct (histv_scale [c] [e] [v] d w) as [H1 H2]; try reflexivity; [constructor; auto|exact Hd|].
  rewrite prodR1 in H2. split; [exact H1|exact H2].
Qed.
Lemma ffac_neg : forall s k bb, ffac s (k * -1) (Some bb) = / ffac s k (Some bb).
Proof.
  intros s k bb. unfold ffac. destruct bb; cbn [is_true]; [|field].
  replace (k * -1) with (- k) by ring. apply Rpower_Ropp.
Qed.
Lemma ffac_plus : forall s j k bb, ffac s (j + k) bb = ffac s j bb * ffac s k bb.
Proof. intros s j k bb. unfold ffac. destruct (is_true bb); [apply Rpower_plus|ring]. Qed.

Lemma histogram_counts : forall s k kw x b w, 0 < s ->
  good s k x -> good_bins s k x b -> good_weights s w kw ->
  exists counts e, np_histogram x b false w = Ok (counts, e)
    /\ good s k e /\ phys e = phys_edges x b
    /\ op_stands s kw counts (histv [phys x] [phys_edges x b] (phys_weights x w) false).
Proof.
  intros s k kw x b w Hs G B W.
  destruct (histogram_prep s k kw x b w false Hs G B W) as (bb & cp & e & p & cnt & wv & P & E1 & E2 & E3 & Ee & Ew & -> & ->).
  pose proof (phys_ffac s k (OArr x) (Some bb) (sz_arr s x k G)) as Ex. cbn [op_phys] in Ex.
  destruct (histv1_scale (ffac s k (Some bb)) (ffac s kw (Some bb)) e (in_frame (Some bb) (OArr x)) wv (ffac_pos _ _ _) (ffac_pos _ _ _)) as [H1 _].
  rewrite <- Ex, <- Ee, <- Ew in H1. rewrite H1.
  assert (Le : good s k (label e (lcf s k) p) /\ phys (label e (lcf s k) p) = phys_edges x b).
  { unfold label. rewrite E1, E2. split; [apply good_label|rewrite good_phys_label; symmetry; exact Ee]. }
  destruct W as [|o kw S]; cbn [bind weights_op].
  - eexists _, _. split; [reflexivity|]. split; [apply Le|]. split; [apply Le|].
    cbn [counts_label orb op_stands]. unfold ffac. rewrite Rpower_0r. cbn [is_true]. destruct bb; rewrite scale_1; reflexivity.
  - rewrite keep_ok. cbn [bind]. eexists _, _. split; [reflexivity|]. split; [apply Le|]. split; [apply Le|].
    destruct S as [y kw Gy|v]; cbn [counts_label orb op_stands op_cf].
    + rewrite (g_cf _ _ _ Gy). fold (lcf s kw). unfold label. rewrite E1, E2.
      split; [apply good_label|apply good_phys_label].
    + unfold ffac. rewrite Rpower_0r. cbn [is_true]. destruct bb; rewrite scale_1; reflexivity.
Qed.

(** Densities: the label is that of the weights over that of the data, the value
    does not scale with the weights. *)
Lemma histogram_density : forall s k kw x b w, 0 < s ->
  good s k x -> good_bins s k x b -> good_weights s w kw ->
  exists bb counts e, np_histogram x b true w = Ok (OArr counts, e)
    /\ good s k e /\ phys e = phys_edges x b
    /\ acm counts = Some bb /\ (acm x = Some true -> bb = true)
    /\ good s (kw - k) counts
    /\ phys counts = scale (ffac s kw (Some bb)) (histv [phys x] [phys_edges x b] (phys_weights x w) true).
Proof.
  intros s k kw x b w Hs G B W.
  destruct (histogram_prep s k kw x b w true Hs G B W) as (bb & cp & e & p & cnt & wv & P & E1 & E2 & E3 & Ee & Ew & -> & ->).
  pose proof (phys_ffac s k (OArr x) (Some bb) (sz_arr s x k G)) as Ex. cbn [op_phys] in Ex.
  destruct (histv1_scale (ffac s k (Some bb)) (ffac s kw (Some bb)) e (in_frame (Some bb) (OArr x)) wv (ffac_pos _ _ _) (ffac_pos _ _ _)) as [_ H1].
  rewrite <- Ex, <- Ee, <- Ew in H1. rewrite H1.
  assert (Le : good s k (label e (lcf s k) p) /\ phys (label e (lcf s k) p) = phys_edges x b).
  { unfold label. rewrite E1, E2. split; [apply good_label|rewrite good_phys_label; symmetry; exact Ee]. }
  assert (Fx : acm x = Some true -> bb = true).
  { intro T. clear - P E1 T G B W Hs.
    destruct (sized_bins s k x b B) as (kb & Sb). pose proof (sized_weights s w kw W) as Sw.
    assert (C : Forall conv (arrs ([OArr x] ++ [bins_op b; OPlain []; OPlain []; weights_op w]))).
    { apply (sized_conv s _ (k :: kb :: 0 :: 0 :: kw :: nil)). cbn [app].
      repeat (constructor; try assumption). }
    destruct (prepare_conv _ _ C) as (? & ? & P' & _). rewrite P in P'. injection P' as ->.
    cbn [k_cm] in E1. unfold frame in E1. cbn [app arrs flat_map existsb] in E1. rewrite T in E1.
    cbn [is_true orb] in E1. congruence. }
  set (H := histv [in_frame (Some bb) (OArr x)] [e] wv true) in *.
  assert (K : forall m, m = kw - k ->
     good s (kw - k) (label H (lcf s m) p) /\
     phys (label H (lcf s m) p) = scale (ffac s kw (Some bb)) (scale (/ ffac s k (Some bb)) H)).
  { intros m ->. unfold label. rewrite E1, E2. split; [apply good_label|]. rewrite good_phys_label.
    rewrite scale_scale. f_equal. unfold Rminus. rewrite ffac_plus. f_equal.
    replace (- k) with (k * -1) by ring. apply ffac_neg. }
  destruct W as [|o kw S]; cbn [bind weights_op].
  - eexists bb, _, _. split; [reflexivity|]. split; [apply Le|]. split; [apply Le|].
    split; [exact E1|]. split; [exact Fx|]. apply K. ring.
  - rewrite keep_ok. cbn [bind]. destruct S as [y kw Gy|v]; cbn [op_cf].
    + rewrite (g_cf _ _ _ Gy). fold (lcf s kw). rewrite h_mul_ok. cbn [bind].
      eexists bb, _, _. split; [reflexivity|]. split; [apply Le|]. split; [apply Le|].
      split; [exact E1|]. split; [exact Fx|]. apply K. ring.
    + cbn [h_multiply2 lcf bind]. eexists bb, _, _. split; [reflexivity|]. split; [apply Le|]. split; [apply Le|].
      split; [exact E1|]. split; [exact Fx|]. apply K. ring.
Qed.

(** * Several axes *)
Lemma prepare_axis_ok : forall s k sb, 0 < s -> good_axis s sb k ->
  exists p, prepare_axis sb = Ok p /\ k_vt p = true
    /\ k_cm p = Some (some_comoving [OArr (fst sb); bins_op (snd sb)])
    /\ phys (fst sb) = scale (ffac s k (k_cm p)) (axis_numbers p)
    /\ phys_edges (fst sb) (snd sb) = scale (ffac s k (k_cm p)) (axis_edges (snd sb) p).
Proof.
  intros s k [x b] Hs [G B]. cbn [fst snd] in *. destruct (sized_bins s k x b B) as (kb & Sb).
  assert (C : Forall conv (arrs ([OArr x] ++ [bins_op b; OPlain []]))).
  { apply (sized_conv s _ (k :: kb :: 0 :: nil)). cbn [app]. repeat (constructor; try assumption). }
  destruct (prepare_conv _ _ C) as (args' & kw' & P & Na & Nk & _).
  destruct (frame_some x [bins_op b; OPlain []]) as (bb & F).
  change (OArr x :: [bins_op b; OPlain []]) with ([OArr x] ++ [bins_op b; OPlain []]) in F.
  assert (Fb : bb = some_comoving [OArr x; bins_op b]).
  { unfold frame in F. cbn [app arrs flat_map] in F. injection F as <-. unfold some_comoving. cbn [existsb].
    destruct (bins_op b); cbn [flat_map app existsb]; reflexivity. }
  rewrite F in P, Na, Nk.
  destruct (numbers1 _ _ Na) as (a' & -> & Ea).
  destruct kw' as [|b' [|c1 [|? ?]]]; try discriminate Nk.
  unfold numbers in Nk. cbn [map] in Nk. injection Nk as Eb _.
  eexists. split; [exact P|]. split; [reflexivity|]. cbn [k_cm]. split; [rewrite Fb; reflexivity|].
  unfold axis_edges, axis_numbers. cbn [k_args k_kw]. rewrite Ea. split.
  - apply (phys_ffac s k (OArr x) (Some bb)). constructor. exact G.
  - rewrite (nbins_of_vals b b' (OPlain (in_frame (Some bb) (bins_op b)))) by exact Eb.
    apply edges_frame; assumption.
Qed.

Lemma axes_ok : forall s axes ks, 0 < s -> Forall2 (good_axis s) axes ks ->
  exists ps cs, all_ok (map prepare_axis axes) = Ok ps
    /\ Forall (fun c => 0 < c) cs /\ length cs = length axes /\ length ps = length axes
    /\ map (fun sb => phys (fst sb)) axes = map2 scale cs (map axis_numbers ps)
    /\ map (fun sb => phys_edges (fst sb) (snd sb)) axes
       = map2 scale cs (map2 (fun sb p => axis_edges (snd sb) p) axes ps)
    /\ let es := map2 (fun sb p => axis_edges (snd sb) p) axes ps in
       let r := map2 (fun sb ep => label (fst ep) (acf (fst sb)) (snd ep)) axes (combine es ps) in
       Forall2 (good s) ks r /\ map phys r = map (fun sb => phys_edges (fst sb) (snd sb)) axes.
Proof.
  intros s axes ks Hs H. induction H as [|sb k axes ks A _ IH].
  - exists [], []. repeat split; constructor.
  - destruct IH as (ps & cs & E & Pc & Lc & Lp & V & W & Gs & Ph).
    destruct (prepare_axis_ok s k sb Hs A) as (p & E1 & Vt & Cm & V1 & W1).
    exists (p :: ps), (ffac s k (k_cm p) :: cs). cbn [map all_ok]. rewrite E1, E. cbn [bind].
    split; [reflexivity|]. split; [constructor; [apply ffac_pos|exact Pc]|].
    split; [cbn; congruence|]. split; [cbn; congruence|].
    split; [cbn [map map2]; rewrite V1, V; reflexivity|].
    split; [cbn [map map2]; rewrite W1, W; reflexivity|].
    cbn [map2 combine map fst snd] in *.
    destruct A as [G B]. rewrite (g_cf _ _ _ G). fold (lcf s k).
    unfold label at 1 3. rewrite Cm, Vt. split.
    + constructor; [apply good_label|exact Gs].
    + rewrite good_phys_label, Ph, W1, Cm. reflexivity.
Qed.

Lemma map2_length : forall A B C (f : A -> B -> C) l m, length l = length m -> length (map2 f l m) = length l.
Proof. induction l as [|a l IH]; intros [|b m] H; try discriminate H; [reflexivity|].
  injection H as H. cbn. f_equal. apply IH. exact H.
Qed.

Lemma hist_counts_ok : forall s axes ks w kw, 0 < s ->
  Forall2 (good_axis s) axes ks -> good_weights s w kw ->
  exists counts es, np_hist_counts axes w = Ok (counts, es)
    /\ Forall2 (good s) ks es /\ map phys es = map (fun sb => phys_edges (fst sb) (snd sb)) axes
    /\ op_stands s kw counts
         (histv (map (fun sb => phys (fst sb)) axes) (map (fun sb => phys_edges (fst sb) (snd sb)) axes)
                (all_weights axes w) false).
Proof.
  intros s axes ks w kw Hs A W.
  destruct (axes_ok s axes ks Hs A) as (ps & cs & E & Pc & Lc & Lp & V & Ve & Gs & Ph).
  unfold np_hist_counts. rewrite E. cbn [bind].
  pose proof (sized_weights s w kw W) as Sw.
  assert (C : Forall conv (arrs ([] ++ [weights_op w]))) by (cbn [app]; eapply sized_conv1; exact Sw).
  destruct (prepare_conv [] [weights_op w] C) as (args' & kw' & P & Na & Nk & _).
  rewrite P. cbn [bind k_kw]. cbn [app map] in Nk.
  destruct (numbers1 _ _ Nk) as (w' & -> & Ew).
  set (fr := frame ([] ++ [weights_op w])) in *.
  set (es := map2 (fun sb p => axis_edges (snd sb) p) axes ps) in *.
  set (wv := weights_of (count_points axes) w w').
  assert (EW : all_weights axes w = scale (ffac s kw fr) wv).
  { unfold all_weights, wv. destruct W as [|o kw S]; cbn [weights_of].
    - unfold ffac. rewrite Rpower_0r. destruct (is_true fr); rewrite scale_1; reflexivity.
    - rewrite Ew. apply phys_ffac. exact S. }
  destruct (histv_scale cs es (map axis_numbers ps) (ffac s kw fr) wv Pc (ffac_pos _ _ _)) as [H _].
  { rewrite map_length. congruence. }
  { unfold es. rewrite map2_length by congruence. congruence. }
  rewrite <- V, <- Ve, <- EW in H. rewrite H.
  eexists _, _. split; [reflexivity|]. split; [exact Gs|]. split; [exact Ph|].
  destruct W as [|o kw S].
  - cbn [op_stands]. unfold ffac. rewrite Rpower_0r. destruct (is_true fr); rewrite scale_1; reflexivity.
  - destruct S as [y kw G|v]; cbn [op_stands].
    + rewrite (g_cf _ _ _ G). fold (lcf s kw). unfold label. cbn [k_cm k_vt k_comp].
      destruct (frame_some y []) as (bb & F). subst fr. cbn [app weights_op] in *.
      rewrite F. split; [apply good_label|apply good_phys_label].
    + unfold ffac. rewrite Rpower_0r. destruct (is_true fr); rewrite scale_1; reflexivity.
Qed.

(** * Densities on a plane *)
Lemma some_comoving_frame : forall x l, frame (OArr x :: l) = Some (some_comoving (OArr x :: l)).
Proof.
  intros x l. unfold frame. cbn [arrs flat_map app]. f_equal. unfold some_comoving. cbn [existsb].
  f_equal. induction l as [|[y|v] l IH]; cbn [flat_map app existsb]; [reflexivity|f_equal; exact IH|exact IH].
Qed.
Lemma prodR2 : forall c d, prodR [c; d] = c * d.
Proof. intros; unfold prodR; cbn; ring. Qed.
Lemma hist2d_density_ok : forall s j k kw x y bx by_ w, 0 < s ->
  good_axis s (x, bx) j -> good_axis s (y, by_) k -> good_weights s w kw ->
  let fr := some_comoving [OArr x; OArr y; bins_op bx; bins_op by_; OPlain []; OPlain []; weights_op w] in
  let fx := some_comoving [OArr x; bins_op bx] in
  let fy := some_comoving [OArr y; bins_op by_] in
  exists counts ex ey, np_hist2d_density x y bx by_ w = Ok (OArr counts, [ex; ey])
    /\ good s (kw - (j + k)) counts /\ acm counts = Some fr
    /\ phys counts = scale (ffac s kw (Some fr))
         (histv [phys x; phys y] [phys_edges x bx; phys_edges y by_] (phys_weights x w) true)
    /\ good s j ex /\ good s k ey
    /\ phys ex = scale (ffac s j (Some fx) / ffac s j (Some fr)) (phys_edges x bx)
    /\ phys ey = scale (ffac s k (Some fy) / ffac s k (Some fr)) (phys_edges y by_).
Proof.
  intros s j k kw x y bx by_ w Hs [Gx Bx] [Gy By] W fr fx fy. cbn [fst snd] in *.
  destruct (prepare_axis_ok s j (x, bx) Hs (conj Gx Bx)) as (px & Ex & Vx & Cx & _).
  destruct (prepare_axis_ok s k (y, by_) Hs (conj Gy By)) as (py & Ey & Vy & Cy & _).
  cbn [fst snd] in *. fold fx in Cx. fold fy in Cy.
  destruct (sized_bins s j x bx Bx) as (kx & Sx). destruct (sized_bins s k y by_ By) as (ky & Sy).
  pose proof (sized_weights s w kw W) as Sw.
  set (kwl := [bins_op bx; bins_op by_; OPlain []; OPlain []; weights_op w]).
  assert (C : Forall conv (arrs ([OArr x; OArr y] ++ kwl))).
  { apply (sized_conv s _ (j :: k :: kx :: ky :: 0 :: 0 :: kw :: nil)). unfold kwl. cbn [app].
    repeat (constructor; try assumption). }
  destruct (prepare_conv [OArr x; OArr y] kwl C) as (args' & kw' & P & Na & Nk & _).
  assert (F : frame ([OArr x; OArr y] ++ kwl) = Some fr) by apply some_comoving_frame.
  rewrite F in P, Na, Nk.
  destruct args' as [|x' [|y' [|? ?]]]; try discriminate Na.
  destruct kw' as [|bx' [|by' [|c1 [|c2 [|w' [|? ?]]]]]]; try discriminate Nk.
  unfold numbers in Na, Nk. cbn [map kwl] in Na, Nk. injection Na as Nx Ny. injection Nk as Nbx Nby _ _ Nw.
  match type of P with _ = Ok ?q0 => remember q0 as q eqn:Q end.
  assert (Qa : k_args q = [x'; y']) by (rewrite Q; reflexivity).
  assert (Qk : k_kw q = [bx'; by'; c1; c2; w']) by (rewrite Q; reflexivity).
  assert (Qc : k_cm q = Some fr) by (rewrite Q; reflexivity).
  assert (Qv : k_vt q = true) by (rewrite Q; reflexivity).
  clear Q. unfold np_hist2d_density. rewrite Ex, Ey. fold kwl. rewrite P. cbn [bind]. rewrite Qa, Qk.
  rewrite Nx, Ny.
  rewrite (nbins_of_vals bx bx' (OPlain (in_frame (Some fr) (bins_op bx)))) by exact Nbx.
  rewrite (nbins_of_vals by_ by' (OPlain (in_frame (Some fr) (bins_op by_)))) by exact Nby.
  rewrite (weights_of_vals _ w w' (OPlain (in_frame (Some fr) (weights_op w)))) by exact Nw.
  pose proof (edges_frame s j x bx (Some fr) Gx Bx Hs) as Eex.
  pose proof (edges_frame s k y by_ (Some fr) Gy By Hs) as Eey.
  pose proof (weights_frame s x w kw (Some fr) W) as Ew.
  set (ex := edges (in_frame (Some fr) (OArr x)) (nbins_of bx (OPlain (in_frame (Some fr) (bins_op bx))))) in *.
  set (ey := edges (in_frame (Some fr) (OArr y)) (nbins_of by_ (OPlain (in_frame (Some fr) (bins_op by_))))) in *.
  set (wv := weights_of (length (avals x)) w (OPlain (in_frame (Some fr) (weights_op w)))) in *.
  pose proof (phys_ffac s j (OArr x) (Some fr) (sz_arr s x j Gx)) as Px.
  pose proof (phys_ffac s k (OArr y) (Some fr) (sz_arr s y k Gy)) as Py. cbn [op_phys] in Px, Py.
  set (cx := ffac s j (Some fr)) in *. set (cy := ffac s k (Some fr)) in *.
  destruct (histv_scale [cx; cy] [ex; ey] [in_frame (Some fr) (OArr x); in_frame (Some fr) (OArr y)] (ffac s kw (Some fr)) wv) as [_ H].
  { repeat constructor; apply ffac_pos. }
  { apply ffac_pos. } { reflexivity. } { reflexivity. }
  cbn [map2] in H. rewrite <- Px, <- Py, <- Eex, <- Eey, <- Ew, prodR2 in H.
  set (cnt := histv [in_frame (Some fr) (OArr x); in_frame (Some fr) (OArr y)] [ex; ey] wv true) in *.
  rewrite (g_cf _ _ _ Gx), (g_cf _ _ _ Gy). fold (lcf s j). fold (lcf s k). rewrite h_mul_ok. cbn [bind].
  unfold h_reciprocal. rewrite h_power_ok. cbn [bind].
  assert (L : forall m, m = kw - (j + k) ->
     good s (kw - (j + k)) (label cnt (lcf s m) q) /\ acm (label cnt (lcf s m) q) = Some fr
     /\ phys (label cnt (lcf s m) q) = scale (ffac s kw (Some fr)) (scale (/ (cx * cy)) cnt)).
  { intros m ->. unfold label. rewrite Qc, Qv.
    split; [apply good_label|]. split; [reflexivity|]. rewrite good_phys_label, scale_scale. f_equal.
    unfold Rminus. rewrite ffac_plus. f_equal. replace (- (j + k)) with ((j + k) * -1) by ring.
    rewrite ffac_neg, ffac_plus. reflexivity. }
  rewrite <- H in L.
  assert (M : forall e (c : R) f m q, k_cm q = Some f -> k_vt q = true ->
     good s m (label e (lcf s m) q) /\ phys (label e (lcf s m) q) = scale (ffac s m (Some f)) e).
  { intros e c f m q0 E1 E2. unfold label. rewrite E1, E2. split; [apply good_label|apply good_phys_label]. }
  assert (D : forall f m c e v, v = scale c e -> c <> 0 -> scale f e = scale (f / c) v /\ m = m :> R).
  { intros f m c e v -> N. split; [|reflexivity]. rewrite scale_scale. f_equal. field. exact N. }
  assert (Nx' : cx <> 0) by (apply Rgt_not_eq; apply ffac_pos).
  assert (Ny' : cy <> 0) by (apply Rgt_not_eq; apply ffac_pos).
  destruct (M ex 0 fx j px Cx Vx) as [M1 M2]. destruct (M ey 0 fy k py Cy Vy) as [M3 M4].
  destruct W as [|o kw S]; cbn [bind weights_op] in *.
  - destruct (L ((j + k) * -1)) as (L1 & L2 & L3); [ring|].
    eexists _, _, _. split; [reflexivity|]. split; [exact L1|]. split; [exact L2|]. split; [exact L3|].
    split; [exact M1|]. split; [exact M3|]. 
    split; [etransitivity; [exact M2|apply (D _ 0 cx ex _ Eex Nx')]|etransitivity; [exact M4|apply (D _ 0 cy ey _ Eey Ny')]].
  - rewrite keep_ok. cbn [bind].
    assert (Hm : h_multiply2 (op_cf o) (lcf s ((j + k) * -1)) = Ok (lcf s (kw - (j + k)))).
    { destruct S as [z kw Gz|v]; cbn [op_cf].
      - rewrite (g_cf _ _ _ Gz). fold (lcf s kw). rewrite h_mul_ok. f_equal. apply lcf_eq. ring.
      - cbn [h_multiply2 lcf]. f_equal. apply lcf_eq. ring. }
    rewrite Hm. cbn [bind]. destruct (L (kw - (j + k)) eq_refl) as (L1 & L2 & L3).
    eexists _, _, _. split; [reflexivity|]. split; [exact L1|]. split; [exact L2|]. split; [exact L3|].
    split; [exact M1|]. split; [exact M3|]. 
    split; [etransitivity; [exact M2|apply (D _ 0 cx ex _ Eex Nx')]|etransitivity; [exact M4|apply (D _ 0 cy ey _ Eey Ny')]].
Qed.

(** * Writing into an array *)
Lemma in_frame_avals : forall s k x b, good s k x -> acm x = Some b -> in_frame (Some b) (OArr x) = avals x.
Proof.
  intros s k x b G E. unfold in_frame. destruct b; cbn [op_comov op_phys]; [apply comov_of_c; exact E|].
  apply phys_of_p. rewrite E. discriminate.
Qed.
Definition moved (x y : carr) : carr :=
  match acm x with Some true => set_cm y true (comov y) | _ => set_cm y false (phys y) end.
Lemma match_frame_good : forall s k x y b, good s k y -> acm x = Some b ->
  match_frame (OArr x) (OArr y) = Ok (OArr (moved x y)).
Proof.
  intros s k x y b G E. unfold match_frame, moved. cbn [op_cm snd]. rewrite E.
  destruct b; [rewrite (conv_c_good s k y G)|rewrite (conv_p_good s k y G)]; reflexivity.
Qed.
Lemma moved_ok : forall s k x y b, good s k y -> acm x = Some b ->
  good s k (moved x y) /\ acm (moved x y) = Some b /\ phys (moved x y) = phys y
  /\ avals (moved x y) = in_frame (Some b) (OArr y).
Proof.
  intros s k x y b G E. unfold moved. rewrite E. destruct b.
  - split; [apply good_set_cm; exact G|]. split; [reflexivity|]. split; [eapply phys_set_c; exact G|reflexivity].
  - split; [apply good_set_cm; exact G|]. split; [reflexivity|]. split; [apply phys_set_p|reflexivity].
Qed.
Lemma written : forall s k x y b write, good s k x -> good s k y -> acm x = Some b ->
  scaling_write write ->
  let r := mkarr (write (avals x) (avals (moved x y))) (acf x) (acm x) (avt x) (acomp x) in
  good s k r /\ acm r = acm x /\ phys r = write (phys x) (phys y).
Proof.
  intros s k x y b write Gx Gy E Hw r. subst r.
  destruct (moved_ok s k x y b Gy E) as (_ & _ & _ & Ev). rewrite Ev.
  rewrite (g_cf _ _ _ Gx), (g_vt _ _ _ Gx), E. fold (lcf s k).
  split; [apply good_label|]. split; [reflexivity|]. rewrite good_phys_label.
  pose proof (phys_ffac s k (OArr x) (Some b) (sz_arr s x k Gx)) as Px.
  pose proof (phys_ffac s k (OArr y) (Some b) (sz_arr s y k Gy)) as Py. cbn [op_phys] in Px, Py.
  rewrite Px, Py, Hw by apply ffac_pos. rewrite (in_frame_avals s k x b Gx E). reflexivity.
Qed.
Lemma h_preserve2_same : forall s k, h_preserve2 (lcf s k) (lcf s k) = Ok (lcf s k).
Proof. intros. cbn [h_preserve2 lcf]. rewrite cf_eq_same. reflexivity. Qed.
Lemma good_cm : forall s k x, good s k x -> exists b, acm x = Some b.
Proof. intros s k x G. pose proof (g_cm _ _ _ G). destruct (acm x) as [b|]; [eauto|congruence]. Qed.
Lemma prep_ok : forall s args kw aks kks, Forall2 (sized s) args aks -> Forall2 (sized s) kw kks ->
  exists p, prepare_kw true args kw = Ok p.
Proof.
  intros s args kw aks kks Ha Hk.
  assert (C : Forall conv (arrs (args ++ kw))).
  { rewrite arrs_app. apply Forall_app. split; eapply sized_conv; eassumption. }
  destruct (prepare_conv args kw C) as (? & ? & P & _). eauto.
Qed.

Definition wrote (s k : R) (write : list R -> list R -> list R) (x y : carr)
           (r : res (operand * operand)) : Prop :=
  exists x' y', r = Ok (OArr x', OArr y')
    /\ good s k x' /\ acm x' = acm x /\ phys x' = write (phys x) (phys y)
    /\ good s k y' /\ phys y' = phys y /\ acm y' = acm x.
Lemma wrote_intro : forall s k write x y, good s k x -> good s k y -> scaling_write write ->
  wrote s k write x y
    (do src' <- match_frame (OArr x) (OArr y);
     Ok (put_vals (OArr x) (write (op_vals (OArr x)) (op_vals src')), src')).
Proof.
  intros s k write x y Gx Gy Hw. destruct (good_cm s k x Gx) as (b & E).
  rewrite (match_frame_good s k x y b Gy E). cbn [bind put_vals op_vals].
  destruct (moved_ok s k x y b Gy E) as (M1 & M2 & M3 & _).
  destruct (written s k x y b write Gx Gy E Hw) as (W1 & W2 & W3).
  eexists _, _. split; [reflexivity|]. split; [exact W1|]. split; [exact W2|]. split; [exact W3|].
  split; [exact M1|]. split; [exact M3|]. rewrite M2, E. reflexivity.
Qed.
Lemma put_wrote : forall s k write x y, good s k x -> good s k y -> scaling_write write ->
  wrote s k write x y (np_put write (OArr x) (OArr y)).
Proof.
  intros s k write x y Gx Gy Hw. unfold np_put.
  destruct (prep_ok s [OArr x; OPlain []; OArr y] [OPlain []] [k; 0; k] [0]) as (p & ->);
    [repeat (constructor; try assumption)..|]. cbn [bind op_cf].
  rewrite (g_cf _ _ _ Gx), (g_cf _ _ _ Gy). fold (lcf s k). rewrite h_preserve2_same. cbn [bind].
  apply wrote_intro; assumption.
Qed.
Lemma copyto_wrote : forall s k write x y, good s k x -> good s k y -> scaling_write write ->
  wrote s k write x y (np_copyto write (OArr x) (OArr y)).
Proof.
  intros s k write x y Gx Gy Hw. unfold np_copyto.
  destruct (prep_ok s [OArr x; OArr y] [OPlain []; OPlain []] [k; k] [0; 0]) as (p & ->);
    [repeat (constructor; try assumption)..|]. cbn [bind].
  rewrite (g_cf _ _ _ Gx), (g_cf _ _ _ Gy). fold (lcf s k). rewrite h_preserve2_same. cbn [bind].
  apply wrote_intro; assumption.
Qed.
Lemma fill_wrote : forall s k write x y, good s k x -> good s k y -> scaling_write write ->
  wrote s k write x y (np_fill_diagonal write (OArr x) (OArr y)).
Proof.
  intros s k write x y Gx Gy Hw. unfold np_fill_diagonal.
  destruct (prep_ok s [OArr x; OArr y] [OPlain []] [k; k] [0]) as (p & ->);
    [repeat (constructor; try assumption)..|]. cbn [bind op_cf].
  rewrite (g_cf _ _ _ Gx), (g_cf _ _ _ Gy). fold (lcf s k). rewrite h_preserve2_same. cbn [bind].
  apply wrote_intro; assumption.
Qed.

(** * Averages *)
Lemma prepare_is : forall d args, prepare d args =
  do p <- prepare_kw d args []; Ok (mkprep (k_args p) (k_cfs p) (k_cm p) (k_vt p) (k_comp p)).
Proof.
  intros d args. unfold prepare, prepare_kw. rewrite app_nil_r.
  change (fun o => match o with OArr x => negb (avt x) | OPlain _ => false end) with protected.
  destruct (map snd (filter fst (map op_cm args))) as [|c cs]; [reflexivity|].
  destruct (forallb is_true (c :: cs)); [reflexivity|].
  destruct (forallb is_none (c :: cs)); [reflexivity|].
  destruct (existsb is_none (c :: cs)); [reflexivity|].
  destruct (forallb is_false (c :: cs)); [reflexivity|].
  destruct (d && negb (existsb protected args)).
  - destruct (all_ok (map (coerce to_comoving) args)); reflexivity.
  - destruct (all_ok (map (coerce to_physical) args)); reflexivity.
Qed.
Lemma prepare_frame : forall args p, Forall conv (arrs args) -> prepare true args = Ok p -> p_cm p = frame args.
Proof.
  intros args p C H. rewrite prepare_is in H. rewrite <- (app_nil_r args) in C.
  destruct (prepare_conv args [] C) as (? & ? & P & _). rewrite P in H. cbn in H. injection H as <-.
  cbn [p_cm]. rewrite app_nil_r. reflexivity.
Qed.
Lemma ufunc2_frame : forall f h x y r, Forall conv (arrs [x; y]) ->
  ufunc2 f h x y = Ok r -> acm r = frame [x; y].
Proof.
  intros f h x y r C H. unfold ufunc2 in H.
  destruct (prepare true [x; y]) as [p|] eqn:P; [|discriminate H]. cbn [bind] in H.
  destruct (h (op_cf x) (op_cf y)); [|discriminate H]. cbn [bind] in H.
  destruct (p_args p) as [|u [|w [|? ?]]]; try discriminate H.
  destruct (broadcast f (op_vals u) (op_vals w)); [|discriminate H]. cbn [bind] in H. injection H as <-.
  cbn [acm]. apply prepare_frame; assumption.
Qed.
Lemma sumop_frame : forall x r, Forall conv (arrs [x]) -> sumop x = Ok r -> acm r = frame [x].
Proof.
  intros x r C H. unfold sumop in H.
  destruct (prepare true [x]) as [p|] eqn:P; [|discriminate H]. cbn [bind] in H.
  destruct (h_preserve [op_cf x]); [|discriminate H]. cbn [bind] in H.
  destruct (p_args p) as [|u [|? ?]]; try discriminate H. injection H as <-.
  cbn [acm]. apply prepare_frame; assumption.
Qed.
Lemma frame1 : forall s k x, good s k x -> frame [OArr x] = acm x.
Proof.
  intros s k x G. rewrite some_comoving_frame. unfold some_comoving. cbn [existsb].
  destruct (good_cm s k x G) as ([|] & ->); reflexivity.
Qed.
Lemma gives_ok : forall s k r v, gives s k r (Ok v) -> exists x, r = Ok x /\ good s k x /\ phys x = v.
Proof. intros s k [x|e] v H; [|destruct H]. exists x. split; [reflexivity|exact H]. Qed.
Lemma avals_phys : forall s k x b, good s k x -> acm x = Some b -> phys x = scale (ffac s k (Some b)) (avals x).
Proof.
  intros s k x b G E. rewrite (vals_by_cm s k x b G E). unfold ffac. destruct b; cbn [is_true]; [reflexivity|].
  rewrite scale_1. reflexivity.
Qed.
Lemma conv2 : forall s j k x y, good s j x -> good s k y -> Forall conv (arrs [OArr x; OArr y]).
Proof. intros. apply (sized_conv s _ [j; k]). repeat (constructor; try assumption). Qed.
Lemma conv1 : forall s k x, good s k x -> Forall conv (arrs [OArr x]).
Proof. intros. apply (sized_conv s _ [k]). repeat (constructor; try assumption). Qed.
Lemma frame2 : forall x y, frame [OArr x; OArr y] = Some (is_true (acm x) || is_true (acm y)).
Proof. intros. rewrite some_comoving_frame. unfold some_comoving. cbn [existsb]. rewrite orb_false_r. reflexivity. Qed.

Lemma average_array : forall s j k x w v, 0 < s -> good s j x -> good s k w ->
  broadcast Rmult (phys x) (phys w) = Ok v ->
  let fr := is_true (acm x) || is_true (acm w) in
  exists r wr, np_average x (OArr w) = Ok (r, OArr wr)
    /\ good s j r /\ acm r = Some fr /\ phys r = [sumR v / sumR (phys w)]
    /\ good s k wr /\ acm wr = Some fr
    /\ phys wr = scale (ffac s k (Some fr) / ffac s k (acm w)) [sumR (phys w)].
Proof.
  intros s j k x w v Hs Gx Gw Hv fr. unfold np_average.
  set (kwl := [OPlain []; OArr w; OPlain []; OPlain []]).
  assert (C : Forall conv (arrs ([OArr x] ++ kwl))).
  { apply (sized_conv s _ (j :: 0 :: k :: 0 :: 0 :: nil)). repeat (constructor; try assumption). }
  destruct (prepare_conv [OArr x] kwl C) as (args' & kw' & P & _).
  rewrite P. cbn [bind].
  assert (F : frame ([OArr x] ++ kwl) = Some fr).
  { cbn [app]. rewrite some_comoving_frame. unfold some_comoving, kwl. cbn [existsb].
    rewrite ?orb_false_r. reflexivity. }
  destruct (gives_ok _ _ _ _ (sumop_gives s k w Gw)) as (scl & Es & Gs & Ps). rewrite Es. cbn [bind].
  pose proof (binop_mul_gives s j k x w Gx Gw) as Hm. change (bfun Bmul) with Rmult in Hm. rewrite Hv in Hm.
  destruct (gives_ok _ _ _ _ Hm) as (num & En & Gn & Pn). rewrite En. cbn [bind].
  destruct (gives_ok _ _ _ _ (sumop_gives s (j + k) num Gn)) as (tot & Et & Gt & Pt). rewrite Et. cbn [bind].
  pose proof (binop_div_gives s (j + k) k tot scl Gt Gs) as Hd. change (bfun Bdiv) with Rdiv in Hd. rewrite Pt, Ps, Pn in Hd.
  destruct (gives_ok _ _ _ _ Hd) as (avg & Ea & Ga & Pa). rewrite Ea. cbn [bind].
  change (phys avg = [sumR v / sumR (phys w)]) in Pa.
  rewrite !keep_ok. cbn [bind op_cf]. rewrite (g_cf _ _ _ Gx), (g_cf _ _ _ Gw). fold (lcf s j). fold (lcf s k).
  eexists _, _. split; [reflexivity|]. unfold label. cbn [k_cm k_vt k_comp]. rewrite F.
  (* frames *)
  pose proof (sumop_frame _ _ (conv1 s k w Gw) Es) as Fs. rewrite (frame1 s k w Gw) in Fs.
  pose proof (ufunc2_frame _ _ _ _ _ (conv2 s j k x w Gx Gw) En) as Fn. rewrite frame2 in Fn. fold fr in Fn.
  pose proof (sumop_frame _ _ (conv1 s _ num Gn) Et) as Ft. rewrite (frame1 s _ num Gn), Fn in Ft.
  pose proof (ufunc2_frame _ _ _ _ _ (conv2 s _ k tot scl Gt Gs) Ea) as Fa. rewrite frame2, Ft, Fs in Fa.
  replace (is_true (Some fr) || is_true (acm w)) with fr in Fa
    by (unfold fr; destruct (is_true (acm x)), (is_true (acm w)); reflexivity).
  split; [apply good_label|]. split; [reflexivity|]. split.
  { rewrite good_phys_label. rewrite <- Pa. rewrite (avals_phys _ _ avg fr Ga Fa). f_equal. unfold ffac.
    destruct (is_true (Some fr)); [|reflexivity]. f_equal. ring. }
  split; [apply good_label|]. split; [reflexivity|]. rewrite good_phys_label.
  destruct (good_cm s k w Gw) as (bw & Bw). rewrite Bw in Fs. rewrite <- Ps, Bw.
  rewrite (avals_phys _ _ scl bw Gs Fs), scale_scale. f_equal.
  pose proof (ffac_pos s k (Some bw)). field. lra.
Qed.

Lemma average_plain : forall s j x w v, 0 < s -> good s j x ->
  broadcast Rmult (phys x) w = Ok v ->
  exists r, np_average x (OPlain w) = Ok (r, OPlain [sumR w])
    /\ good s j r /\ acm r = acm x /\ phys r = [sumR v / sumR w].
Proof.
  intros s j x w v Hs Gx Hv. unfold np_average.
  set (kwl := [OPlain []; OPlain w; OPlain []; OPlain []]).
  assert (C : Forall conv (arrs ([OArr x] ++ kwl))).
  { apply (sized_conv s _ (j :: 0 :: 0 :: 0 :: 0 :: nil)). repeat (constructor; try assumption). }
  destruct (prepare_conv [OArr x] kwl C) as (args' & kw' & P & _).
  rewrite P. cbn [bind].
  assert (F : frame ([OArr x] ++ kwl) = acm x) by apply (frame1 s j x Gx).
  pose proof (binop_num_r_gives s j Bmul x w (or_introl eq_refl) Gx) as Hm. change (bfun Bmul) with Rmult in Hm. rewrite Hv in Hm.
  destruct (gives_ok _ _ _ _ Hm) as (num & En & Gn & Pn). rewrite En. cbn [bind].
  destruct (gives_ok _ _ _ _ (sumop_gives s j num Gn)) as (tot & Et & Gt & Pt). rewrite Et. cbn [bind].
  pose proof (binop_num_r_gives s j Bdiv tot [sumR w] (or_intror (or_introl eq_refl)) Gt) as Hd. change (bfun Bdiv) with Rdiv in Hd.
  rewrite Pt, Pn in Hd.
  destruct (gives_ok _ _ _ _ Hd) as (avg & Ea & Ga & Pa). rewrite Ea. cbn [bind].
  change (phys avg = [sumR v / sumR w]) in Pa.
  rewrite !keep_ok. cbn [bind op_cf]. rewrite (g_cf _ _ _ Gx). fold (lcf s j).
  eexists. split; [reflexivity|]. unfold label. cbn [k_cm k_vt k_comp]. rewrite F.
  destruct (good_cm s j x Gx) as (b & B).
  assert (Cn : Forall conv (arrs [OArr x; OPlain w])) by apply (conv1 s j x Gx).
  pose proof (ufunc2_frame _ _ _ _ _ Cn En) as Fn. change (frame [OArr x; OPlain w]) with (frame [OArr x]) in Fn.
  rewrite (frame1 s j x Gx) in Fn.
  pose proof (sumop_frame _ _ (conv1 s _ num Gn) Et) as Ft. rewrite (frame1 s _ num Gn), Fn in Ft.
  assert (Ct : Forall conv (arrs [OArr tot; OPlain [sumR w]])) by apply (conv1 s j tot Gt).
  pose proof (ufunc2_frame _ _ _ _ _ Ct Ea) as Fa. change (frame [OArr tot; OPlain [sumR w]]) with (frame [OArr tot]) in Fa.
  rewrite (frame1 s j tot Gt), Ft, B in Fa. rewrite B.
  split; [apply good_label|]. split; [reflexivity|]. rewrite good_phys_label.
  rewrite <- (avals_phys s j avg b Ga Fa). exact Pa.
Qed.

(** * Lists of arrays *)
Lemma oplist_stands : forall s f x ops rest kw k aks zs, 0 < s -> good s k x ->
  Forall2 (sized s) ops aks ->
  homogeneous f (k :: aks) (map (fun _ => 0) (rest ++ kw)) k ->
  (forall a, In a (rest ++ kw) -> exists v, a = OPlain v) ->
  zs = map op_vals (rest ++ kw) ->
  stands s k (oplist f (OArr x :: ops) rest kw) (f (phys x :: map op_phys ops) zs).
Proof.
  intros s f x ops rest kw k aks zs Hs G Ho Hf Hp ->.
  assert (Pl : forall l, (forall a, In a l -> exists v, a = OPlain v) ->
     arrs l = [] /\ map (in_frame None) l = map op_vals l).
  { induction l as [|a l IH]; intro H; [split; reflexivity|].
    destruct (H a (or_introl eq_refl)) as (v & ->). destruct (IH (fun b Hb => H b (or_intror Hb))) as [I1 I2].
    split; [exact I1|]. cbn [map]. rewrite I2. reflexivity. }
  assert (Pr : forall a, In a rest -> exists v, a = OPlain v) by (intros; apply Hp; apply in_or_app; auto).
  assert (Pk : forall a, In a kw -> exists v, a = OPlain v) by (intros; apply Hp; apply in_or_app; auto).
  assert (A0 : arrs ((OPlain [] :: rest) ++ kw) = []).
  { rewrite arrs_app. cbn [arrs flat_map app]. fold (arrs rest). rewrite (proj1 (Pl rest Pr)), (proj1 (Pl kw Pk)). reflexivity. }
  assert (C0 : Forall conv (arrs ((OPlain [] :: rest) ++ kw))) by (rewrite A0; constructor).
  destruct (prepare_conv _ _ C0) as (a0 & k0 & P0 & Na0 & Nk0 & _).
  assert (F0 : frame ((OPlain [] :: rest) ++ kw) = None) by (unfold frame; rewrite A0; reflexivity).
  rewrite F0 in *.
  assert (C : Forall conv (arrs ((OArr x :: ops) ++ []))).
  { rewrite app_nil_r. apply (sized_conv s _ (k :: aks)). constructor; [constructor; exact G|exact Ho]. }
  destruct (prepare_conv _ _ C) as (a1 & k1 & P1 & Na1 & _).
  rewrite app_nil_r in *. rewrite some_comoving_frame in *.
  unfold oplist. rewrite P0. cbn [bind]. rewrite P1. cbn [bind k_cfs map op_cf k_args k_kw].
  rewrite (g_cf _ _ _ G). fold (lcf s k).
  assert (Z : numbers (skipn 1 a0 ++ k0) = map op_vals (rest ++ kw)).
  { unfold numbers in *. rewrite !map_app. rewrite Nk0.
    rewrite <- skipn_map. rewrite Na0. cbn [map skipn]. rewrite (proj2 (Pl rest Pr)), (proj2 (Pl kw Pk)). reflexivity. }
  rewrite Z, Na1. set (b := some_comoving (OArr x :: ops)).
  unfold label. cbn [k_cm k_vt k_comp].
  assert (W : forall m (zs : list R) (vs : list (list R)), length zs = length vs -> Forall (fun z => z = 0) zs -> wscale m zs vs = vs).
  { intros m. induction zs as [|z zs IH]; intros [|v vs] L Fz; try discriminate L; [reflexivity|].
    inversion Fz; subst. injection L as L. cbn [wscale]. rewrite Rpower_0r, scale_1, IH by assumption. reflexivity. }
  assert (Zz : Forall (fun z => z = 0) (map (fun _ : operand => 0) (rest ++ kw))).
  { apply Forall_forall. intros z Hz. apply in_map_iff in Hz. destruct Hz as (? & <- & _). reflexivity. }
  destruct b.
  - change (map (in_frame (Some true)) (OArr x :: ops)) with (map op_comov (OArr x :: ops)).
    pose proof (wscale_comov s (OArr x :: ops) (k :: aks) (Forall2_cons _ _ (sz_arr s x k G) Ho)) as E.
    cbn [map] in E |- *. cbn [op_phys op_comov] in E.
    pose proof (Hf s (comov x :: map op_comov ops) (map op_vals (rest ++ kw)) Hs) as Hh.
    rewrite <- E in Hh. rewrite W in Hh; [|rewrite !map_length; reflexivity|exact Zz].
    rewrite Hh; [|cbn; f_equal; rewrite map_length; eapply F2_length; exact Ho|rewrite !map_length; reflexivity].
    cbn [op_comov]. destruct (f (comov x :: map op_comov ops) (map op_vals (rest ++ kw))); cbn [bind rscale]; [|reflexivity].
    apply stands_ok; [exact Hs|reflexivity].
  - change (map (in_frame (Some false)) (OArr x :: ops)) with (phys x :: map op_phys ops).
    destruct (f (phys x :: map op_phys ops) (map op_vals (rest ++ kw))); cbn [bind]; [|reflexivity].
    apply stands_ok; [exact Hs|reflexivity].
Qed.
Lemma hom_concat : forall n k, homogeneous v_concat (repeat k n) [] k.
Proof.
  intros n k t avs kvs Ht La _. unfold v_concat. cbn [rscale]. f_equal. rewrite repeat_length in La.
  revert avs La. induction n as [|n IH]; intros [|v avs] La; try discriminate La; [reflexivity|].
  injection La as La. cbn [repeat wscale concat]. rewrite IH by exact La. unfold scale. rewrite map_app. reflexivity.
Qed.

(** * Results placed in [out] *)
Lemma out_stands : forall s f h args kw aks kks e x ko v, 0 < s ->
  Forall2 (sized s) args aks -> Forall2 (sized s) kw kks -> good s ko x ->
  h (map op_cf args) (map op_cf (kw ++ [OArr x])) = Ok (lcf s e) ->
  homogeneous f aks kks e ->
  f (map op_phys args) (map op_phys kw) = Ok v ->
  exists r o, call_out f h args kw (OArr x) = Ok (r, OArr o)
    /\ good s e r /\ phys r = v /\ good s e o
    /\ (acm x = Some true \/ some_comoving (args ++ kw) = false -> phys o = v)
    /\ (acm x = Some false -> some_comoving (args ++ kw) = true -> avals o = avals x /\ acm o = Some true).
Proof.
  intros s f h args kw aks kks e x ko v Hs Ha Hk G Hh Hf Hv.
  assert (C : Forall conv (arrs (args ++ (kw ++ [OArr x])))).
  { rewrite !arrs_app. apply Forall_app. split; [eapply sized_conv; exact Ha|].
    apply Forall_app. split; [eapply sized_conv; exact Hk|]. eapply conv1; exact G. }
  destruct (prepare_conv args (kw ++ [OArr x]) C) as (args' & kw' & P & Na & Nk & _).
  assert (AR : arrs (args ++ kw ++ [OArr x]) = arrs (args ++ kw) ++ [x]) by (rewrite app_assoc, arrs_app; reflexivity).
  assert (SC : forall l, some_comoving l = existsb (fun y => is_true (acm y)) (arrs l)).
  { unfold some_comoving. induction l as [|[y|u] l IH]; cbn [arrs flat_map app existsb]; [reflexivity|f_equal; exact IH|exact IH]. }
  assert (FR : frame (args ++ kw ++ [OArr x]) = Some (some_comoving (args ++ kw) || is_true (acm x))).
  { unfold frame. rewrite AR. rewrite SC.
    destruct (arrs (args ++ kw) ++ [x]) eqn:E; [destruct (arrs (args ++ kw)); discriminate E|].
    rewrite <- E, existsb_app. cbn [existsb]. rewrite orb_false_r. reflexivity. }
  set (cm := some_comoving (args ++ kw)) in *.
  rewrite FR in P, Na, Nk.
  unfold call_out. rewrite P. cbn [bind k_cfs k_kwcfs k_args k_kw]. rewrite Hh. cbn [bind].
  rewrite Na.
  assert (Nk' : numbers (firstn (length kw) kw') = map (in_frame (Some (cm || is_true (acm x)))) kw).
  { unfold numbers in *. rewrite <- firstn_map, Nk, map_app, firstn_app, map_length, Nat.sub_diag.
    cbn [firstn]. rewrite app_nil_r, firstn_all2 by (rewrite map_length; lia). reflexivity. }
  rewrite Nk'. set (b := cm || is_true (acm x)) in *.
  assert (V : exists v', f (map (in_frame (Some b)) args) (map (in_frame (Some b)) kw) = Ok v' /\ v = scale (ffac s e (Some b)) v').
  { unfold ffac. destruct b; cbn [is_true].
    - change (map (in_frame (Some true)) args) with (map op_comov args).
      change (map (in_frame (Some true)) kw) with (map op_comov kw).
      rewrite (wscale_comov s args aks Ha), (wscale_comov s kw kks Hk) in Hv.
      rewrite Hf in Hv; [|exact Hs|rewrite map_length; eapply F2_length; eassumption|rewrite map_length; eapply F2_length; eassumption].
      destruct (f (map op_comov args) (map op_comov kw)); [|discriminate Hv]. cbn [rscale] in Hv. injection Hv as <-. eauto.
    - exists v. split; [exact Hv|]. rewrite scale_1. reflexivity. }
  destruct V as (v' & Ev & ->). rewrite Ev. cbn [bind out_after].
  eexists _, _. split; [reflexivity|]. unfold label, same_object. cbn [k_cm k_vt k_comp k_mixed].
  split; [apply good_label|]. split; [apply good_phys_label|]. split; [apply good_label|].
  assert (MX : mixed (args ++ kw ++ [OArr x]) = b && (existsb (fun y => is_false (acm y)) (arrs (args ++ kw)) || is_false (acm x))).
  { unfold mixed. rewrite AR, !existsb_app. cbn [existsb]. rewrite !orb_false_r. unfold b, cm. rewrite SC. reflexivity. }
  rewrite MX. destruct (good_cm s ko x G) as (bx & Bx). split.
  - intros D. rewrite good_phys_label. f_equal.
    assert (T : negb (b && (existsb (fun y => is_false (acm y)) (arrs (args ++ kw)) || is_false (acm x))) || is_true (acm x) = true).
    { unfold b. rewrite Bx in *. destruct bx; [apply orb_true_r|]. destruct D as [D|D]; [discriminate D|]. rewrite D. reflexivity. }
    rewrite T. reflexivity.
  - intros B T. unfold b. rewrite B, T. cbn [is_true is_false orb andb negb]. rewrite orb_true_r. cbn [negb orb]. split; reflexivity.
Qed.

(** * Reductions *)
Lemma propagate_stands : forall s k f x, 0 < s -> good s k x -> linear f ->
  stands s k (propagate f x) (f (phys x)) /\
  (forall r, propagate f x = Ok r -> acm r = acm x).
Proof.
  intros s k f x Hs G Hf. destruct (good_cm s k x G) as (b & B). unfold propagate.
  rewrite (avals_phys s k x b G B), Hf by apply ffac_pos.
  destruct (f (avals x)) as [v|e]; cbn [bind rscale]; [|split; [reflexivity|discriminate]].
  unfold with_vals. split; [|intros r E; injection E as <-; reflexivity].
  rewrite (g_cf _ _ _ G), (g_vt _ _ _ G), B. fold (lcf s k). split; [apply good_label|apply good_phys_label].
Qed.
(** [initial=] in another frame. *)
Lemma propagate_initial_ok : forall s k f x i v, 0 < s -> good s k x -> good s k i ->
  homogeneous f [k] [k] k -> f [phys x] [phys i] = Ok v ->
  let fr := is_true (acm x) || is_true (acm i) in
  exists r, propagate_initial f x (OArr i) = Ok r /\ good s k r /\ acm r = acm x
    /\ phys r = scale (ffac s k (acm x) / ffac s k (Some fr)) v.
Proof.
  intros s k f x i v Hs G Gi Hf Hv fr.
  assert (C : Forall conv (arrs ([OArr x] ++ [OArr i]))) by (apply (conv2 s k k x i G Gi)).
  destruct (prepare_conv [OArr x] [OArr i] C) as (args' & kw' & P & Na & Nk & _).
  cbn [app] in *. rewrite frame2 in *. fold fr in P, Na, Nk.
  unfold propagate_initial. rewrite P. cbn [bind k_args k_kw]. rewrite Na, Nk. cbn [map].
  assert (V : exists v', f [in_frame (Some fr) (OArr x)] [in_frame (Some fr) (OArr i)] = Ok v' /\ v = scale (ffac s k (Some fr)) v').
  { unfold ffac. destruct fr; cbn [is_true].
    - pose proof (wscale_comov s [OArr x] [k]) as Wx. pose proof (wscale_comov s [OArr i] [k]) as Wi.
      cbn [map op_phys] in Wx, Wi. rewrite Wx, Wi in Hv by (repeat (constructor; try assumption)).
      rewrite Hf in Hv by (reflexivity || exact Hs). cbn [op_comov] in Hv.
      change (in_frame (Some true) (OArr x)) with (comov x). change (in_frame (Some true) (OArr i)) with (comov i).
      destruct (f [comov x] [comov i]); [|discriminate Hv]. cbn [rscale] in Hv. injection Hv as <-. eauto.
    - exists v. split; [exact Hv|]. rewrite scale_1. reflexivity. }
  destruct V as (v' & Ev & ->). rewrite Ev. cbn [bind].
  destruct (good_cm s k x G) as (b & B). unfold with_vals.
  rewrite (g_cf _ _ _ G), (g_vt _ _ _ G), B. fold (lcf s k).
  eexists. split; [reflexivity|]. split; [apply good_label|]. split; [reflexivity|].
  rewrite good_phys_label, scale_scale. f_equal. pose proof (ffac_pos s k (Some fr)). field. lra.
Qed.

(** * Comparisons *)
Lemma compare_ok : forall s k A (f : list (list R) -> res A) x y kw, 0 < s ->
  good s k x -> good s k y -> (forall a, In a kw -> exists v, a = OPlain v) ->
  (forall c u v, 0 < c -> f [scale c u; scale c v] = f [u; v]) ->
  np_compare f (OArr x) (OArr y) kw = f [phys x; phys y].
Proof.
  intros s k A f x y kw Hs Gx Gy Hp Hf.
  assert (Ak : arrs kw = []).
  { induction kw as [|a l IH]; [reflexivity|]. destruct (Hp a (or_introl eq_refl)) as (v & ->). apply IH.
    intros b Hb. apply Hp. right. exact Hb. }
  assert (C : Forall conv (arrs ([OArr x; OArr y] ++ kw))).
  { rewrite arrs_app, Ak, app_nil_r. apply (conv2 s k k x y Gx Gy). }
  destruct (prepare_conv [OArr x; OArr y] kw C) as (args' & kw' & P & Na & _).
  unfold np_compare. rewrite P. cbn [bind k_cfs k_kwcfs map op_cf two k_args].
  rewrite (g_cf _ _ _ Gx), (g_cf _ _ _ Gy). unfold h_compare. rewrite cf_eq_same. cbn [negb bind].
  rewrite Na. cbn [map app]. rewrite some_comoving_frame.
  set (b := some_comoving (OArr x :: OArr y :: kw)).
  pose proof (phys_ffac s k (OArr x) (Some b) (sz_arr s x k Gx)) as Px.
  pose proof (phys_ffac s k (OArr y) (Some b) (sz_arr s y k Gy)) as Py. cbn [op_phys] in Px, Py.
  rewrite Px, Py. symmetry. apply Hf. apply ffac_pos.
Qed.

(** * [select], [choose], [block] *)
Lemma h_preserve_all : forall s k n, h_preserve (repeat (lcf s k) (S n)) = Ok (lcf s k).
Proof.
  intros s k n. unfold h_preserve, reduce. cbn [repeat].
  induction n as [|n IH]; [reflexivity|]. cbn [repeat reduce_from]. rewrite h_preserve2_same. exact IH.
Qed.
Lemma cfs_same : forall s k xs, Forall (good s k) xs -> map op_cf (map OArr xs) = repeat (lcf s k) (length xs).
Proof.
  intros s k xs H. induction H as [|x xs G _ IH]; [reflexivity|]. cbn [map length repeat op_cf].
  rewrite (g_cf _ _ _ G), IH. reflexivity.
Qed.
Lemma conv_all : forall s k xs, Forall (good s k) xs -> Forall conv (arrs (map OArr xs)).
Proof.
  intros s k xs H. apply (sized_conv s _ (repeat k (length xs))).
  induction H; cbn; constructor; [constructor; assumption|assumption].
Qed.
Lemma prepare_all : forall s k xs, Forall (good s k) xs ->
  exists p, prepare_kw true (map OArr xs) [] = Ok p /\ k_cfs p = repeat (lcf s k) (length xs)
    /\ numbers (k_args p) = map (fun x => in_frame (frame (map OArr xs)) (OArr x)) xs.
Proof.
  intros s k xs H. assert (C : Forall conv (arrs (map OArr xs ++ []))) by (rewrite app_nil_r; eapply conv_all; exact H).
  destruct (prepare_conv (map OArr xs) [] C) as (a & w & P & Na & _). rewrite app_nil_r in *.
  eexists. split; [exact P|]. cbn [k_cfs k_args]. split; [apply cfs_same; exact H|]. rewrite Na, map_map. reflexivity.
Qed.
Lemma select_plain : forall s k n conds xs d, Forall (good s k) xs -> xs <> [] ->
  exists r, np_select n conds (map OArr xs) (OPlain [d]) = Ok r
    /\ acf r = lcf s k /\ acm r = None /\ avt r = true
    /\ avals r = selectv n conds (map (fun x => in_frame (frame (map OArr xs)) (OArr x)) xs) d.
Proof.
  intros s k n conds xs d H N. unfold np_select.
  change (prepare_kw true [OPlain []; OPlain []] [OPlain [d]])
    with (Ok (mkprepk [OPlain []; OPlain []] [OPlain [d]] [None; None] [None] None true (CPair false CNone) false)).
  cbn [bind]. destruct (prepare_all s k xs H) as (p & -> & Ec & En). cbn [bind k_kw numbers map op_vals]. rewrite Ec. change (map op_vals (k_args p)) with (numbers (k_args p)). rewrite En.
  destruct xs as [|x xs]; [congruence|]. cbn [length]. rewrite h_preserve_all. cbn [bind].
  eexists. split; [reflexivity|]. repeat split.
Qed.
Lemma pick_first_scale : forall c conds choices i d,
  pick_first conds (map (scale c) choices) i (c * d) = c * pick_first conds choices i d.
Proof.
  intros c conds. induction conds as [|b bs IH]; intros [|v vs] i d; cbn [map pick_first]; try reflexivity.
  rewrite nth_scale. destruct (nth i b false); [reflexivity|apply IH].
Qed.
Lemma frame_all : forall xs b, xs <> [] -> Forall (fun x => acm x = Some b) xs -> frame (map OArr xs) = Some b.
Proof.
  intros [|x xs] b N H; [congruence|]. rewrite <- (map_id (x :: xs)). cbn [map]. rewrite some_comoving_frame. f_equal.
  unfold some_comoving. cbn [existsb]. inversion H; subst. rewrite H2. destruct b; [reflexivity|]. cbn [is_true orb].
  rewrite map_id. clear - H3. induction H3 as [|y ys E _ IH]; [reflexivity|]. cbn [map existsb]. rewrite E. exact IH.
Qed.
Lemma select_array : forall s k n conds xs z d b, Forall (good s k) xs -> xs <> [] -> good s k z ->
  Forall (fun x => acm x = Some b) xs -> acm z = Some b -> phys z = [d] ->
  exists r, np_select n conds (map OArr xs) (OArr z) = Ok r /\ good s k r
    /\ phys r = selectv n conds (map phys xs) d.
Proof.
  intros s k n conds xs z d b H N Gz Hb Bz Pz. unfold np_select.
  assert (C : Forall conv (arrs ([OPlain []; OPlain []] ++ [OArr z]))) by (eapply conv1; exact Gz).
  destruct (prepare_conv [OPlain []; OPlain []] [OArr z] C) as (a & w & P & _ & Nk & _).
  change (frame ([OPlain []; OPlain []] ++ [OArr z])) with (frame [OArr z]) in *.
  rewrite (frame1 s k z Gz), Bz in *. rewrite P. cbn [bind].
  destruct (prepare_all s k xs H) as (p & -> & Ec & En). cbn [bind k_kw]. rewrite Ec, En.
  rewrite (frame_all xs b N Hb). rewrite Nk. cbn [map]. rewrite (in_frame_avals s k z b Gz Bz).
  pose proof (avals_phys s k z b Gz Bz) as Vz. rewrite Pz in Vz.
  destruct (avals z) as [|d' [|? ?]]; try discriminate Vz. unfold scale in Vz. cbn [map] in Vz. injection Vz as Vz.
  destruct xs as [|x xs]; [congruence|]. cbn [length]. rewrite h_preserve_all. cbn [bind].
  eexists. split; [reflexivity|]. unfold label. cbn [k_cm k_vt k_comp]. split; [apply good_label|].
  rewrite good_phys_label. unfold selectv, scale. rewrite map_map. apply map_ext. intro i.
  rewrite <- pick_first_scale. f_equal; [|symmetry; exact Vz].
  rewrite map_map. apply map_ext_in. intros y Hy. symmetry.
  apply (phys_ffac s k (OArr y) (Some b)). constructor. rewrite Forall_forall in H. apply H. exact Hy.
Qed.
Lemma choose_ok : forall s k idx xs, Forall (good s k) xs -> xs <> [] ->
  exists r, np_choose idx (map OArr xs) = Ok r
    /\ acf r = lcf s k /\ acm r = None /\ avt r = true /\ avals r = choosev idx (map avals xs).
Proof.
  intros s k idx xs H N. unfold np_choose.
  change (prepare_kw true [OPlain []; OPlain []] [OPlain []; OPlain []])
    with (Ok (mkprepk [OPlain []; OPlain []] [OPlain []; OPlain []] [None; None] [None; None] None true (CPair false CNone) false)).
  cbn [bind]. destruct (prepare_all s k xs H) as (p & -> & Ec & _). cbn [bind]. rewrite Ec.
  destruct xs as [|x xs]; [congruence|]. cbn [length]. rewrite h_preserve_all. cbn [bind].
  eexists. split; [reflexivity|]. repeat split. unfold label. cbn [avals]. f_equal.
  unfold numbers. rewrite map_map. reflexivity.
Qed.

Lemma block_labels_same : forall s k n, block_labels (repeat (lcf s k) (S n)) = Ok [lcf s k].
Proof.
  intros s k n. unfold block_labels. cbn [repeat].
  assert (E : all_ok (map (fun d => ocf_ne d (lcf s k)) (repeat (lcf s k) n)) = Ok (repeat false n)).
  { induction n as [|n IH]; [reflexivity|]. cbn [repeat map all_ok]. rewrite IH.
    unfold ocf_ne at 1, lcf. rewrite cf_eq_same. reflexivity. }
  rewrite E. cbn [bind].
  assert (F : existsb (fun b => b) (repeat false n) = false) by (clear; induction n; [reflexivity|exact IHn]).
  rewrite F. reflexivity.
Qed.
Lemma block_prep : forall s k xs, Forall (good s k) xs ->
  exists ps, all_ok (map (fun o => prepare_kw true [o] []) (map OArr xs)) = Ok ps
    /\ map k_cm ps = map acm xs /\ forallb k_vt ps = true.
Proof.
  intros s k xs H. induction H as [|x xs G _ IH]; [exists []; repeat split|].
  destruct IH as (ps & E & Em & Ev). cbn [map all_ok].
  assert (C : Forall conv (arrs ([OArr x] ++ []))) by (eapply conv1; exact G).
  destruct (prepare_conv [OArr x] [] C) as (a & w & P & _). cbn [app] in P. rewrite (frame1 s k x G) in P.
  rewrite P, E. eexists. split; [reflexivity|]. cbn [map forallb k_cm k_vt]. rewrite Em, Ev. split; reflexivity.
Qed.
Lemma block_ok : forall s k f xs, Forall (good s k) xs -> xs <> [] ->
  let b := existsb (fun x => is_true (acm x)) xs in
  exists cp, np_block f (map OArr xs) =
    do v <- f (map (fun x => in_frame (Some b) (OArr x)) xs);
    Ok (mkblocked v [lcf s k] (Some b) true cp).
Proof.
  intros s k f xs H N b. unfold np_block.
  destruct (block_prep s k xs H) as (ps & -> & Em & Ev). cbn [bind]. rewrite Em, Ev.
  pose proof (conv_all s k xs H) as C.
  assert (A : arrs (map OArr xs) = xs) by (clear; induction xs as [|x xs IH]; cbn; [reflexivity|f_equal; exact IH]).
  rewrite A in C.
  rewrite (cfs_same s k xs H).
  destruct xs as [|x xs]; [congruence|]. cbn [length]. rewrite block_labels_same.
  assert (Cx : conv x) by (inversion C; assumption).
  rewrite (all_true_not_false _ C), (all_false_not_true _ C), (none_none _ C), (not_all_none x xs Cx).
  set (l := x :: xs) in *.
  assert (AF : existsb (fun y => is_false (acm y)) l = false -> b = true /\ numbers (map OArr l) = map (fun y => in_frame (Some b) (OArr y)) l).
  { intro E. assert (T : b = true).
    { unfold b. cbn [l existsb] in E |- *. apply orb_false_iff in E. destruct E as [E _].
      pose proof (conv_cm x Cx). destruct (acm x) as [[|]|]; [reflexivity|discriminate|congruence]. }
    split; [exact T|]. rewrite T. rewrite numbers_comov; [rewrite map_map; reflexivity| |]; rewrite A; assumption. }
  destruct (existsb (fun y => is_false (acm y)) l) eqn:EF; cbn [negb].
  - change (existsb (fun y => is_true (acm y)) l) with b. destruct b eqn:EB; cbn [negb bind snd fst].
    + assert (E : all_ok (map (fun o => match o with OArr y => do z <- to_comoving y; Ok (OArr z) | OPlain _ => Err AttributeError end) (map OArr l))
                  = Ok (map (fun y => OArr (set_cm y true (comov y))) l)).
      { clear - H. induction H as [|y ys G _ IH]; [reflexivity|]. cbn [map all_ok]. rewrite (to_c_good s k y G), IH. reflexivity. }
      rewrite E. cbn [bind]. eexists. unfold numbers. rewrite map_map. reflexivity.
    + eexists. rewrite numbers_phys; [rewrite map_map; reflexivity|]. rewrite A. exact EB.
  - destruct (AF eq_refl) as [T E]. cbn [bind snd fst]. rewrite E, T. eexists. reflexivity.
Qed.

(** * Counts and densities of one axis *)
Lemma cells_length : forall e, length (cells e) = (length e - 1)%nat.
Proof.
  induction e as [|a e IH]; [reflexivity|]. destruct e as [|b t]; [reflexivity|].
  change (cells (a :: b :: t)) with ((a, b, match t with [] => true | _ => false end) :: cells (b :: t)).
  cbn [length] in *. rewrite IH. Lia.lia.
Qed.
Lemma cells_nth : forall e j d, (S j < length e)%nat ->
  nth j (cells e) d = (nth j e 0, nth (S j) e 0, Nat.eqb (S (S j)) (length e)).
Proof.
  induction e as [|a e IH]; intros j d H; [cbn in H; Lia.lia|].
  destruct e as [|b t]; [cbn in H; Lia.lia|].
  change (cells (a :: b :: t)) with ((a, b, match t with [] => true | _ => false end) :: cells (b :: t)).
  destruct j as [|j].
  - cbn [nth]. destruct t; reflexivity.
  - cbn [length] in *. cbn [nth]. rewrite IH by (cbn [length]; Lia.lia). cbn [nth length]. reflexivity.
Qed.
Lemma grid1 : forall e, grid [e] = map (fun c => [c]) (cells e).
Proof. intro e. unfold grid. induction (cells e) as [|c t IH]; [reflexivity|]. cbn [flat_map map app]. f_equal. Qed.
Lemma counted_cons : forall x v a w c,
  counted [x :: v] (a :: w) [c] = (if in_cell c x then a else 0) + counted [v] w [c].
Proof.
  intros x v a w c. unfold counted. cbn [length seq]. rewrite <- seq_shift, map_cons, map_map.
  cbn [inside nth]. rewrite andb_true_r. reflexivity.
Qed.
Lemma Rleb_true : forall x y, Rleb x y = true <-> x <= y.
Proof. intros x y. unfold Rleb. destruct (Rle_dec x y); split; intro H; try reflexivity; try lra; discriminate. Qed.
Lemma Rltb_true : forall x y, Rltb x y = true <-> x < y.
Proof. intros x y. unfold Rltb. destruct (Rlt_dec x y); split; intro H; try reflexivity; try lra; discriminate. Qed.
Lemma in_cell_bin : forall e j x,
  in_cell (nth j e 0, nth (S j) e 0, Nat.eqb (S (S j)) (length e)) x = true <-> in_bin e j x.
Proof.
  intros e j x. unfold in_cell, in_bin. rewrite andb_true_iff, Rleb_true.
  destruct (Nat.eqb (S (S j)) (length e)) eqn:E.
  - apply Nat.eqb_eq in E. rewrite Rleb_true. split; intros [A B]; (split; [exact A|]); [|lra].
    destruct (Req_dec x (nth (S j) e 0)); [right; split; assumption|left; lra].
  - apply Nat.eqb_neq in E. rewrite Rltb_true. split; intros [A B]; (split; [exact A|]); [left; exact B|].
    destruct B as [B|[B _]]; [exact B|contradiction].
Qed.
Lemma counts_in_bins : forall e j v w, length v = length w -> (S j < length e)%nat ->
  bin_total e j v w (nth j (histv [v] [e] w false) 0).
Proof.
  intros e j v w L H. unfold histv. rewrite grid1, map_map.
  rewrite (nth_indep _ 0 (counted [v] w [(0, 0, true)])) by (rewrite map_length, cells_length; Lia.lia).
  rewrite (map_nth (fun c => counted [v] w [c]) (cells e) (0, 0, true) j).
  rewrite (cells_nth e j _ H). revert w L. induction v as [|x v IH]; intros [|a w] L; try discriminate L; [constructor|].
  rewrite counted_cons. injection L as L. destruct (in_cell _ x) eqn:E.
  - apply bt_in; [apply in_cell_bin; exact E|apply IH; exact L].
  - rewrite Rplus_0_l. apply bt_out; [|apply IH; exact L].
    intro B. apply in_cell_bin in B. congruence.
Qed.
Lemma densities : forall e j v w, (S j < length e)%nat -> nth j e 0 <> nth (S j) e 0 ->
  let total := sumR (histv [v] [e] w false) in
  total <> 0 ->
  nth j (histv [v] [e] w true) 0 * (nth (S j) e 0 - nth j e 0) * total = nth j (histv [v] [e] w false) 0.
Proof.
  intros e j v w H N total T. unfold total in *. clear total. unfold histv in *. rewrite map2_map_in, grid1, !map_map in *.
  set (tot := sumR _) in *.
  rewrite (nth_indep (map (fun c => counted [v] w [c] / volume [c] / tot) (cells e)) 0 (counted [v] w [(0, 0, true)] / volume [(0, 0, true)] / tot)) by (rewrite map_length, cells_length; Lia.lia).
  rewrite (map_nth (fun c => counted [v] w [c] / volume [c] / tot) (cells e) (0, 0, true) j).
  rewrite (nth_indep (map (fun c => counted [v] w [c]) (cells e)) 0 (counted [v] w [(0, 0, true)])) by (rewrite map_length, cells_length; Lia.lia).
  rewrite (map_nth (fun c => counted [v] w [c]) (cells e) (0, 0, true) j).
  rewrite (cells_nth e j _ H). unfold volume. cbn [map width]. rewrite prodR1. field. split; [lra|exact T].
Qed.

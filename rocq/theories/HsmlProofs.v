(** Facts about sorted distances, the block loop and nearest points. *)
From Coq Require Import List ZArith Reals Bool Lra Lia Psatz.
From Verif Require Import Base BaseLemmas VisModel VisSpec VisProofs RotModel HsmlModel.
Import ListNotations.
Open Scope R_scope.

(** * Specification *)

(** How many entries are below, or not above, a number. *)
Fixpoint below (v : R) (l : list R) : Z :=
  match l with
  | [] => 0
  | x :: t => ((if Rlt_dec x v then 1 else 0) + below v t)%Z
  end.
Fixpoint upto (v : R) (l : list R) : Z :=
  match l with
  | [] => 0
  | x :: t => ((if Rle_dec x v then 1 else 0) + upto v t)%Z
  end.

(** [v] is the [k]-th smallest entry of [l]. *)
Definition kth_smallest (k : Z) (l : list R) (v : R) : Prop :=
  In v l /\ (below v l < k <= upto v l)%Z.

Definition square_length (a : vec) : R := let '(x, y, z) := a in x * x + y * y + z * z.
Definition image_of (box p : vec) (i j k : Z) : vec :=
  let '(lx, ly, lz) := box in let '(x, y, z) := p in
  (x + IZR i * lx, y + IZR j * ly, z + IZR k * lz).
Definition separation (a b : vec) : R := sqrt (square_length (vsub a b)).
Definition in_box (box p : vec) : Prop :=
  let '(lx, ly, lz) := box in let '(x, y, z) := p in
  0 <= x < lx /\ 0 <= y < ly /\ 0 <= z < lz.

(** The distance to the closest periodic image. *)
Definition closest (box a b : vec) (d : R) : Prop :=
  (exists i j k, d = separation a (image_of box b i j k)) /\
  (forall i j k, d <= separation a (image_of box b i j k)).

(** * Sorting *)

Lemma insert_length : forall x l, length (insert x l) = S (length l).
Proof.
  intros x l; induction l as [|y t IH]; [reflexivity|].
  cbn [insert]. destruct (Rle_dec x y); cbn [length]; [reflexivity | rewrite IH; reflexivity].
Qed.

Lemma sort_length : forall l, length (sort l) = length l.
Proof. induction l as [|x t IH]; [reflexivity|]. cbn [sort length]. rewrite insert_length, IH. reflexivity. Qed.

Lemma insert_In : forall x l v, In v (insert x l) <-> v = x \/ In v l.
Proof.
  intros x l v; induction l as [|y t IH]; [cbn [insert In]; intuition|].
  cbn [insert]. destruct (Rle_dec x y); cbn [In]; [intuition|].
  rewrite IH. intuition.
Qed.

Lemma sort_In : forall l v, In v (sort l) <-> In v l.
Proof.
  induction l as [|x t IH]; intro v; [reflexivity|]. cbn [sort]. rewrite insert_In, IH.
  cbn [In]. intuition.
Qed.

Lemma insert_below : forall v x l, below v (insert x l) = below v (x :: l).
Proof.
  intros v x l; induction l as [|y t IH]; [reflexivity|].
  cbn [insert]. destruct (Rle_dec x y); [reflexivity|].
  cbn [below] in *. rewrite IH. lia.
Qed.

Lemma insert_upto : forall v x l, upto v (insert x l) = upto v (x :: l).
Proof.
  intros v x l; induction l as [|y t IH]; [reflexivity|].
  cbn [insert]. destruct (Rle_dec x y); [reflexivity|].
  cbn [upto] in *. rewrite IH. lia.
Qed.

Lemma sort_below : forall v l, below v (sort l) = below v l.
Proof.
  intros v l; induction l as [|x t IH]; [reflexivity|]. cbn [sort]. rewrite insert_below.
  cbn [below]. rewrite IH. reflexivity.
Qed.

Lemma sort_upto : forall v l, upto v (sort l) = upto v l.
Proof.
  intros v l; induction l as [|x t IH]; [reflexivity|]. cbn [sort]. rewrite insert_upto.
  cbn [upto]. rewrite IH. reflexivity.
Qed.

Fixpoint ascending (l : list R) : Prop :=
  match l with
  | [] => True
  | x :: t => (forall y, In y t -> x <= y) /\ ascending t
  end.

Lemma insert_ascending : forall x l, ascending l -> ascending (insert x l).
Proof.
  intros x l; induction l as [|y t IH]; intro H; cbn [insert ascending].
  - split; [intros ? []|exact I].
  - destruct H as [Hy Ht]. destruct (Rle_dec x y) as [Hxy|Hxy].
    + cbn [ascending]. split; [|split; assumption].
      intros z [<-|Hz]; [lra|]. specialize (Hy z Hz). lra.
    + cbn [ascending]. split; [|apply IH; exact Ht].
      intros z Hz. apply insert_In in Hz. destruct Hz as [->|Hz]; [lra|auto].
Qed.

Lemma sort_ascending : forall l, ascending (sort l).
Proof. induction l; [exact I|]. cbn [sort]. apply insert_ascending. assumption. Qed.

Lemma below_none : forall v l, (forall y, In y l -> v <= y) -> below v l = 0%Z.
Proof.
  intros v l; induction l as [|y t IH]; intro H; [reflexivity|].
  cbn [below]. rewrite IH by (intros; apply H; right; assumption).
  specialize (H y (or_introl eq_refl)). destruct (Rlt_dec y v); [lra|reflexivity].
Qed.

Lemma below_length : forall v l, (0 <= below v l <= zlen l)%Z.
Proof.
  intros v l; induction l as [|y t IH]; [cbn; lia|].
  cbn [below]. rewrite zlen_cons. destruct (Rlt_dec y v); lia.
Qed.

Lemma upto_nonneg : forall v l, (0 <= upto v l)%Z.
Proof.
  intros v l; induction l as [|y t IH]; [reflexivity|]. cbn [upto]. destruct (Rle_dec y v); lia.
Qed.

Lemma ascending_nth : forall l k v,
  ascending l -> nth_error l k = Some v ->
  (below v l <= Z.of_nat k)%Z /\ (Z.of_nat k + 1 <= upto v l)%Z.
Proof.
  induction l as [|x t IH]; intros k v Ha Hk; [destruct k; discriminate|].
  destruct Ha as [Hx Ht]. destruct k as [|k].
  - injection Hk as <-. cbn [below upto]. rewrite below_none by exact Hx.
    pose proof (upto_nonneg x t). destruct (Rlt_dec x x); [lra|]. destruct (Rle_dec x x); [|lra]. lia.
  - cbn [nth_error] in Hk. destruct (IH k v Ht Hk) as [H1 H2].
    cbn [below upto]. specialize (Hx v (nth_error_In _ _ Hk)).
    destruct (Rle_dec x v); [|lra]. destruct (Rlt_dec x v); lia.
Qed.

Lemma sort_kth : forall l k v,
  nth_error (sort l) k = Some v -> kth_smallest (Z.of_nat k + 1) l v.
Proof.
  intros l k v H. split; [apply sort_In, (nth_error_In _ _ H)|].
  destruct (ascending_nth _ _ _ (sort_ascending l) H) as [H1 H2].
  rewrite sort_below in H1. rewrite sort_upto in H2. lia.
Qed.

(** The [k]-th smallest number is unique. *)
Lemma kth_unique : forall k l v w, kth_smallest k l v -> kth_smallest k l w -> v = w.
Proof.
  assert (M : forall l v w, v < w -> (upto v l <= below w l)%Z).
  { induction l as [|x t IH]; intros v w H; [reflexivity|]. cbn [upto below].
    specialize (IH v w H). destruct (Rle_dec x v), (Rlt_dec x w); try lia. lra. }
  intros k l v w [_ [V1 V2]] [_ [W1 W2]].
  destruct (Rtotal_order v w) as [H|[H|H]]; [|exact H|]; apply (M l) in H; lia.
Qed.

(** The last entry of a row of the query. *)
Lemma query_row_last : forall box points k c,
  (1 <= k)%Z ->
  ((k <= zlen points)%Z ->
   exists r, last (query_row box points k c) Infinite = Number r
             /\ kth_smallest k (map (tree_distance box c) points) r)
  /\ ((zlen points < k)%Z -> last (query_row box points k c) Infinite = Infinite).
Proof.
  intros box points k c Hk. unfold query_row.
  set (d := map (tree_distance box c) points).
  assert (Hl : length (map Number (sort d)) = length points).
  { rewrite map_length, sort_length. unfold d. apply map_length. }
  split; intro Hn; unfold zlen in Hn.
  - assert (Hf : length (firstn (Z.to_nat k) (map Number (sort d))) = Z.to_nat k).
    { apply firstn_length_le. lia. }
    rewrite Hf, Nat.sub_diag. cbn [repeat]. rewrite app_nil_r.
    destruct (nth_error (sort d) (Z.to_nat k - 1)) as [r|] eqn:E.
    + exists r. split.
      * pose proof (map_nth_error Number _ _ E) as E'.
        assert (firstn (Z.to_nat k) (map Number (sort d))
                = firstn (Z.to_nat k - 1) (map Number (sort d)) ++ [Number r]) as ->.
        { clear - E' Hk. replace (Z.to_nat k) with (S (Z.to_nat k - 1)) at 1 by lia.
          revert E'. generalize (map Number (sort d)). generalize (Z.to_nat k - 1)%nat. clear.
          induction n as [|n IH]; intros [|x l] E; try discriminate.
          - injection E as ->. reflexivity.
          - cbn [firstn app]. f_equal. apply IH. exact E. }
        apply last_last.
      * apply sort_kth in E. replace (Z.of_nat (Z.to_nat k - 1) + 1)%Z with k in E by lia. exact E.
    + apply nth_error_None in E. rewrite sort_length in E. unfold d in E. rewrite map_length in E. lia.
  - rewrite firstn_all2 by lia. rewrite Hl.
    replace (Z.to_nat k - length points)%nat with (S (Z.to_nat k - length points - 1)) by lia.
    assert (forall n, repeat Infinite (S n) = repeat Infinite n ++ [Infinite]) as ->.
    { induction n as [|n IH]; [reflexivity|]. change (Infinite :: repeat Infinite (S n) = Infinite :: (repeat Infinite n ++ [Infinite])).
      rewrite IH. reflexivity. }
    rewrite app_assoc. apply last_last.
Qed.

(** * The block loop *)

Lemma slice_length : forall (A : Type) (l : list A) lo hi,
  (0 <= lo <= zlen l)%Z -> (lo <= hi)%Z ->
  zlen (slice l (lo, hi)) = (Z.min hi (zlen l) - lo)%Z.
Proof.
  intros A l lo hi H1 H2. unfold slice. cbn [fst snd]. unfold zlen in *.
  rewrite firstn_length, skipn_length. lia.
Qed.

Lemma assign_value : forall start stop v out,
  (0 <= start <= zlen out)%Z -> (start <= stop)%Z ->
  zlen v = (Z.min stop (zlen out) - start)%Z ->
  assign start stop v out
  = Ok (firstn (Z.to_nat start) out ++ v ++ skipn (Z.to_nat start + length v) out).
Proof.
  intros start stop v out H1 H2 Hv. unfold assign.
  replace (Z.min start (zlen out)) with start by lia.
  replace (Z.max start (Z.min stop (zlen out))) with (Z.min stop (zlen out)) by lia.
  rewrite <- Hv.
  assert (E : (if (zlen v =? 1)%Z then repeat (hd Unset v) (Z.to_nat (zlen v)) else v) = v).
  { destruct (Z.eqb_spec (zlen v) 1) as [E|_]; [|reflexivity].
    destruct v as [|x [|y t]]; try reflexivity; unfold zlen in E; cbn [length] in E; lia. }
  rewrite E, Z.eqb_refl. reflexivity.
Qed.

Lemma skipn_skipn' : forall (A : Type) (l : list A) a b, skipn a (skipn b l) = skipn (b + a) l.
Proof.
  intros A l a b; revert l; induction b as [|b IH]; intro l; [reflexivity|].
  destruct l; [rewrite !skipn_nil; reflexivity|]. cbn [skipn Nat.add]. apply IH.
Qed.

Lemma firstn_grow : forall (A : Type) (l : list A) a b,
  firstn a l ++ firstn b (skipn a l) = firstn (a + b) l.
Proof.
  intros A l a; revert l; induction a as [|a IH]; intros l b; [reflexivity|].
  destruct l; [rewrite !firstn_nil; reflexivity|]. cbn [firstn skipn Nat.add app]. f_equal. apply IH.
Qed.

Lemma query_last_ok : forall box points k qs,
  (2 <= k)%Z ->
  query_last box points k qs = Ok (map (fun c => last (query_row box points k c) Infinite) qs).
Proof.
  intros. unfold query_last. destruct (Z.ltb_spec k 1); [lia|]. destruct (Z.eqb_spec k 1); [lia|].
  reflexivity.
Qed.

Lemma blocks_loop_ok : forall box points k bs out0,
  (2 <= k)%Z -> (1 <= bs)%Z -> length out0 = length points ->
  let f := fun c => last (query_row box points k c) Infinite in
  forall n b, (0 <= b)%Z -> (b * bs <= zlen points)%Z ->
  (Z.of_nat n = 1 + zlen points / bs - b)%Z ->
  blocks_loop box points k bs (zrange b (1 + zlen points / bs))
              (map f (firstn (Z.to_nat (b * bs)) points) ++ skipn (Z.to_nat (b * bs)) out0)
  = Ok (map f points).
Proof.
  intros box points k bs out0 Hk Hbs Hlen f.
  induction n as [|n IH]; intros b Hb0 Hb Hn.
  - exfalso. pose proof (Z.div_le_lower_bound (zlen points) bs b ltac:(lia) ltac:(lia)). lia.
  - rewrite zrange_cons by lia. cbn [blocks_loop].
    unfold block_range.
    assert (Hbb : ((b + 1) * bs = b * bs + bs)%Z) by ring.
    set (s := (b * bs)%Z) in *.
    set (stop := (if (zlen points <? (b + 1) * bs)%Z then (zlen points + 1)%Z else ((b + 1) * bs)%Z)).
    assert (Hs : (s < stop)%Z).
    { unfold stop. destruct (Z.ltb_spec (zlen points) ((b + 1) * bs)); nia. }
    destruct (Z.leb_spec stop s) as [?|_]; [lia|].
    rewrite query_last_ok by exact Hk. cbn [bind]. fold f.
    set (q := slice points (s, stop)).
    assert (Hs0 : (0 <= s)%Z) by (unfold s; nia).
    assert (Hq : zlen q = (Z.min stop (zlen points) - s)%Z).
    { unfold q. apply slice_length; lia. }
    assert (Hout : zlen (map f (firstn (Z.to_nat s) points) ++ skipn (Z.to_nat s) out0) = zlen points).
    { unfold zlen. rewrite app_length, map_length, firstn_length, skipn_length, Hlen. unfold zlen in Hb. lia. }
    assert (Hfl : length (map f (firstn (Z.to_nat s) points)) = Z.to_nat s).
    { rewrite map_length. apply firstn_length_le. unfold zlen in Hb. lia. }
    rewrite assign_value; [|rewrite Hout; lia|lia|rewrite zlen_map, Hout; exact Hq].
    cbn [bind].
    rewrite firstn_app, Hfl, Nat.sub_diag. cbn [firstn]. rewrite app_nil_r.
    rewrite firstn_all2 by (rewrite Hfl; lia).
    rewrite skipn_app, Hfl, skipn_all2 by (rewrite Hfl; lia). cbn [app].
    replace (Z.to_nat s + length (map f q) - Z.to_nat s)%nat with (length (map f q)) by lia.
    rewrite skipn_skipn', map_length.
    rewrite app_assoc, <- map_app.
    assert (Hg : firstn (Z.to_nat s) points ++ q = firstn (Z.to_nat s + length q) points).
    { assert (q = firstn (length q) (skipn (Z.to_nat s) points)) as Hqq.
      { unfold q, slice. cbn [fst snd]. rewrite firstn_length.
        set (l := skipn (Z.to_nat s) points). set (m := Z.to_nat (stop - s)).
        destruct (Nat.le_gt_cases m (length l)).
        - rewrite Nat.min_l by assumption. reflexivity.
        - rewrite Nat.min_r by lia. rewrite !firstn_all2 by lia. reflexivity. }
      rewrite Hqq at 1. apply firstn_grow. }
    rewrite Hg.
    destruct (Z.le_gt_cases ((b + 1) * bs) (zlen points)) as [Hc|Hc].
    + assert (Hstop : stop = ((b + 1) * bs)%Z).
      { unfold stop. destruct (Z.ltb_spec (zlen points) ((b + 1) * bs)); lia. }
      assert (Z.to_nat s + length q = Z.to_nat ((b + 1) * bs))%nat as ->.
      { rewrite Hstop, Z.min_l, Hbb in Hq by exact Hc. rewrite Hbb. unfold zlen in Hq. lia. }
      apply IH; try lia.
    + assert (Hstop : stop = (zlen points + 1)%Z).
      { unfold stop. destruct (Z.ltb_spec (zlen points) ((b + 1) * bs)); lia. }
      assert (b = (zlen points / bs)%Z) as Hbe.
      { apply (Z.div_unique_pos (zlen points) bs b (zlen points - b * bs)); nia. }
      rewrite zrange_nil by lia. cbn [blocks_loop].
      assert (Z.to_nat s + length q = length points)%nat as ->.
      { unfold zlen in *. lia. }
      rewrite firstn_all, skipn_all2 by lia. rewrite app_nil_r. reflexivity.
Qed.

(** * Periodic distances *)

Lemma IZR_ge_1 : forall k, (1 <= k)%Z -> 1 <= IZR k.
Proof. intros. apply (IZR_le 1). assumption. Qed.

Lemma axis_distance_min : forall l a b,
  0 <= a < l -> 0 <= b < l ->
  (exists k, axis_distance l a b * axis_distance l a b = (a - (b + IZR k * l)) * (a - (b + IZR k * l)))
  /\ (forall k, axis_distance l a b * axis_distance l a b <= (a - (b + IZR k * l)) * (a - (b + IZR k * l))).
Proof.
  intros l a b Ha Hb. unfold axis_distance.
  destruct (Req_EM_T l 0) as [H0|_]; [lra|].
  set (d := Rabs (a - b)).
  assert (Hd : 0 <= d < l /\ d * d = (a - b) * (a - b)).
  { unfold d, Rabs. destruct (Rcase_abs (a - b)); split; try lra; ring. }
  assert (Hs : exists s, (s = 1 \/ s = -1)%Z /\ a - b = IZR s * d).
  { unfold d, Rabs. destruct (Rcase_abs (a - b)); [exists (-1)%Z|exists 1%Z]; split; auto; lra. }
  destruct Hs as (s & Hs1 & Hs2).
  split.
  - unfold Rmin. destruct (Rle_dec d (l - d)).
    + exists 0%Z. rewrite (proj2 Hd). ring.
    + exists s. replace (a - (b + IZR s * l)) with (a - b - IZR s * l) by ring.
      rewrite Hs2. destruct Hs1 as [-> | ->]; ring.
  - intro k. replace (a - (b + IZR k * l)) with (a - b - IZR k * l) by ring. rewrite Hs2.
    pose proof (Rmin_l d (l - d)). pose proof (Rmin_r d (l - d)).
    assert (0 <= Rmin d (l - d)) by (apply Rmin_glb; lra).
    set (m := Rmin d (l - d)) in *. clearbody m.
    assert (E : exists j, IZR s * d - IZR k * l = IZR s * (d - IZR j * l)).
    { exists (s * k)%Z. rewrite mult_IZR. destruct Hs1 as [-> | ->]; ring. }
    destruct E as [j ->].
    replace (IZR s * (d - IZR j * l) * (IZR s * (d - IZR j * l)))
      with ((d - IZR j * l) * (d - IZR j * l)) by (destruct Hs1 as [-> | ->]; ring).
    destruct (Z.le_gt_cases j 0) as [Hj|Hj].
    + assert (IZR j <= 0) by (apply (IZR_le j 0); lia).
      assert (d <= d - IZR j * l) by nra. nra.
    + assert (1 <= IZR j) by (apply IZR_ge_1; lia).
      assert (l - d <= IZR j * l - d) by nra. nra.
Qed.

Lemma tree_distance_closest : forall box a b,
  in_box box a -> in_box box b -> closest box a b (tree_distance box a b).
Proof.
  intros [[lx ly] lz] [[ax ay] az] [[bx by_] bz] (Hax & Hay & Haz) (Hbx & Hby & Hbz).
  destruct (axis_distance_min lx ax bx Hax Hbx) as [[i Ei] Mi].
  destruct (axis_distance_min ly ay by_ Hay Hby) as [[j Ej] Mj].
  destruct (axis_distance_min lz az bz Haz Hbz) as [[k Ek] Mk].
  unfold closest, separation, image_of, square_length, tree_distance. cbn [vsub].
  split.
  - exists i, j, k. rewrite Ei, Ej, Ek. reflexivity.
  - intros i' j' k'. apply sqrt_le_1_alt. specialize (Mi i'). specialize (Mj j'). specialize (Mk k'). lra.
Qed.

Lemma outside_false : forall box p, in_box box p -> outside box p = false.
Proof.
  intros [[lx ly] lz] [[x y] z] (Hx & Hy & Hz). unfold outside, outside_axis.
  repeat match goal with
         | |- context [Req_EM_T ?a ?b] => destruct (Req_EM_T a b); [lra|]
         | |- context [Rlt_dec ?a ?b] => destruct (Rlt_dec a b); [lra|]
         | |- context [Rle_dec ?a ?b] => destruct (Rle_dec a b); [lra|]
         end. reflexivity.
Qed.

Lemma outside_true : forall box p,
  (let '(lx, ly, lz) := box in 0 < lx /\ 0 < ly /\ 0 < lz) ->
  ~ in_box box p -> outside box p = true.
Proof.
  intros [[lx ly] lz] [[x y] z] (Lx & Ly & Lz) H. unfold in_box in H. unfold outside, outside_axis.
  repeat match goal with
         | |- context [Req_EM_T ?a ?b] => destruct (Req_EM_T a b)
         | |- context [Rlt_dec ?a ?b] => destruct (Rlt_dec a b)
         | |- context [Rle_dec ?a ?b] => destruct (Rle_dec a b)
         end; cbn [orb]; try reflexivity; try lra; exfalso; apply H; lra.
Qed.

Lemma build_ok : forall box ps, (forall p, In p ps -> in_box box p) -> build box ps = Ok ps.
Proof.
  intros box ps H. unfold build.
  assert (existsb (outside box) ps = false) as ->; [|reflexivity].
  induction ps as [|p t IH]; [reflexivity|]. cbn [existsb].
  rewrite outside_false by (apply H; left; reflexivity).
  apply IH. intros q Hq. apply H. right. exact Hq.
Qed.

(** * Wrapping *)

Lemma rmod_range : forall x l, 0 < l -> 0 <= rmod x l < l.
Proof.
  intros x l Hl. unfold rmod, floor. destruct (base_Int_part (x / l)) as [H1 H2].
  set (k := IZR (Int_part (x / l))) in *.
  assert (E : x = l * (x / l)) by (field; lra).
  set (q := x / l) in *. clearbody q k. subst x. split; nra.
Qed.

Lemma rmod_image : forall x l, exists k, rmod x l = x + IZR k * l.
Proof.
  intros. exists (- floor (x / l))%Z. unfold rmod. rewrite opp_IZR. ring.
Qed.

Lemma wrap_in_box : forall box p,
  (let '(lx, ly, lz) := box in 0 < lx /\ 0 < ly /\ 0 < lz) -> in_box box (wrap_point box p).
Proof.
  intros [[lx ly] lz] [[x y] z] (Lx & Ly & Lz). unfold wrap_point, wrap_axis, in_box.
  destruct (Req_EM_T lx 0); [lra|]. destruct (Req_EM_T ly 0); [lra|]. destruct (Req_EM_T lz 0); [lra|].
  repeat split; apply rmod_range; assumption.
Qed.

(** * Nearest points *)

Lemma nearest_spec : forall box c points index best least all,
  (index = length all)%nat ->
  (best < length all)%nat ->
  (forall p, nth_error all best = Some p -> tree_distance box c p = least) ->
  (forall p, In p all -> least <= tree_distance box c p) ->
  let r := nearest box c points index best least in
  exists p, nth_error (all ++ points) r = Some p
            /\ forall q, In q (all ++ points) -> tree_distance box c p <= tree_distance box c q.
Proof.
  intros box c points; induction points as [|q rest IH]; intros index best least all Hi Hb Hl Hm.
  - cbv zeta. cbn [nearest]. rewrite app_nil_r.
    destruct (nth_error all best) as [p|] eqn:E.
    + exists p. split; [reflexivity|]. intros q Hq. rewrite (Hl p eq_refl). apply Hm, Hq.
    + apply nth_error_None in E. lia.
  - cbv zeta. cbn [nearest].
    replace (all ++ q :: rest) with ((all ++ [q]) ++ rest) by (rewrite <- app_assoc; reflexivity).
    destruct (Rlt_dec (tree_distance box c q) least) as [H|H].
    + apply IH.
      * rewrite app_length. cbn [length]. lia.
      * rewrite app_length. cbn [length]. lia.
      * intros p Hp. rewrite nth_error_app2, Hi, Nat.sub_diag in Hp by lia.
        injection Hp as <-. reflexivity.
      * intros p Hp. apply in_app_or in Hp. destruct Hp as [Hp|[<-|[]]]; [|lra].
        specialize (Hm p Hp). lra.
    + apply IH.
      * rewrite app_length. cbn [length]. lia.
      * rewrite app_length. cbn [length]. lia.
      * intros p Hp. rewrite nth_error_app1 in Hp by lia. apply Hl, Hp.
      * intros p Hp. apply in_app_or in Hp. destruct Hp as [Hp|[<-|[]]]; [|lra].
        apply Hm, Hp.
Qed.

(** Sums, floors, images and their writes. *)
From Coq Require Import List ZArith Reals Bool Lia Lra Permutation.
From Verif Require Import Base BaseLemmas VisModel VisSpec.
Import ListNotations.
Open Scope R_scope.

(** * Floors *)

Lemma floor_spec : forall x, IZR (floor x) <= x < IZR (floor x) + 1.
Proof. intro x. unfold floor. destruct (base_Int_part x). lra. Qed.

Lemma IZR_le_lt : forall a b, IZR a < IZR b + 1 -> (a <= b)%Z.
Proof. intros a b H. rewrite <- plus_IZR in H. apply lt_IZR in H. lia. Qed.

Lemma IZR_lt_lt : forall a b, IZR a < IZR b -> (a < b)%Z.
Proof. intros a b H. apply lt_IZR in H. exact H. Qed.

Lemma IZR_le : forall a b, (a <= b)%Z -> IZR a <= IZR b.
Proof. exact IZR_le. Qed.

Lemma IZR_succ_le : forall a b, (a < b)%Z -> IZR a + 1 <= IZR b.
Proof. intros a b H. rewrite <- plus_IZR. apply IZR_le. lia. Qed.

Lemma floor_unique : forall x z, IZR z <= x < IZR z + 1 -> floor x = z.
Proof.
  intros x z H. pose proof (floor_spec x) as F.
  assert (floor x <= z)%Z by (apply IZR_le_lt; lra).
  assert (z <= floor x)%Z by (apply IZR_le_lt; lra). lia.
Qed.

Lemma ceil_spec : forall x, x <= IZR (ceil x) < x + 1.
Proof.
  intro x. unfold ceil. rewrite opp_IZR. destruct (base_Int_part (- x)). lra.
Qed.

Lemma ceil_unique : forall x z, x <= IZR z < x + 1 -> ceil x = z.
Proof.
  intros x z H. pose proof (ceil_spec x) as F.
  assert (ceil x <= z)%Z by (apply IZR_le_lt; lra).
  assert (z <= ceil x)%Z by (apply IZR_le_lt; lra). lia.
Qed.

Lemma trunc_floor : forall x, 0 <= x -> trunc x = floor x.
Proof. intros x H. unfold trunc. destruct (Rle_dec 0 x); [reflexivity|contradiction]. Qed.

Lemma floor_le : forall x z, IZR z <= x -> (z <= floor x)%Z.
Proof. intros x z H. apply IZR_le_lt. pose proof (floor_spec x). lra. Qed.

Lemma floor_lt : forall x z, x < IZR z -> (floor x < z)%Z.
Proof. intros x z H. apply IZR_lt_lt. pose proof (floor_spec x). lra. Qed.

Lemma floor_add : forall x z, floor (x + IZR z) = (floor x + z)%Z.
Proof. intros x z. apply floor_unique. rewrite plus_IZR. pose proof (floor_spec x). lra. Qed.

(** * Sums *)

Lemma sumR_cons : forall x t, sumR (x :: t) = x + sumR t.
Proof. reflexivity. Qed.
Lemma sumR_nil : sumR [] = 0.
Proof. reflexivity. Qed.
Ltac sums := cbn [map app flat_map]; rewrite ?sumR_nil, ?sumR_cons.

Lemma sumR_app : forall a b, sumR (a ++ b) = sumR a + sumR b.
Proof. induction a as [|x t IH]; intro b; sums; [lra|]. rewrite IH. lra. Qed.

Lemma sumR_flat_map : forall A (f : A -> list R) l, sumR (flat_map f l) = sumR (map (fun a => sumR (f a)) l).
Proof. induction l as [|x t IH]; sums; [reflexivity|]. rewrite sumR_app, IH. reflexivity. Qed.

Lemma sumR_ext : forall A (f g : A -> R) l, (forall a, In a l -> f a = g a) -> sumR (map f l) = sumR (map g l).
Proof.
  induction l as [|x t IH]; intro H; sums; [reflexivity|]. rewrite (H x), IH; auto.
  - intros a Ha. apply H. right. exact Ha.
  - left. reflexivity.
Qed.

Lemma sumR_zero : forall A (f : A -> R) l, (forall a, In a l -> f a = 0) -> sumR (map f l) = 0.
Proof.
  induction l as [|x t IH]; intro H; sums; [reflexivity|]. rewrite (H x), IH; [lra| |].
  - intros a Ha. apply H. right. exact Ha.
  - left. reflexivity.
Qed.

Lemma sumR_plus : forall A (f g : A -> R) l,
  sumR (map (fun a => f a + g a) l) = sumR (map f l) + sumR (map g l).
Proof. induction l as [|x t IH]; sums; [lra|]. rewrite IH. lra. Qed.

Lemma sumR_scal : forall A (f : A -> R) k l, sumR (map (fun a => k * f a) l) = k * sumR (map f l).
Proof. induction l as [|x t IH]; sums; [lra|]. rewrite IH. lra. Qed.

Lemma sumR_scal_r : forall A (f : A -> R) k l, sumR (map (fun a => f a * k) l) = sumR (map f l) * k.
Proof. induction l as [|x t IH]; sums; [lra|]. rewrite IH. lra. Qed.

Lemma sumR_nonneg : forall A (f : A -> R) l, (forall a, In a l -> 0 <= f a) -> 0 <= sumR (map f l).
Proof.
  induction l as [|x t IH]; intro H; sums; [lra|].
  assert (0 <= f x) by (apply H; left; reflexivity).
  assert (0 <= sumR (map f t)) by (apply IH; intros a Ha; apply H; right; exact Ha). lra.
Qed.

Lemma sumR_le : forall A (f g : A -> R) l, (forall a, In a l -> f a <= g a) ->
  sumR (map f l) <= sumR (map g l).
Proof.
  induction l as [|x t IH]; intro H; sums; [lra|].
  assert (f x <= g x) by (apply H; left; reflexivity).
  assert (sumR (map f t) <= sumR (map g t)) by (apply IH; intros a Ha; apply H; right; exact Ha). lra.
Qed.

Lemma sumR_swap : forall A B (f : A -> B -> R) l m,
  sumR (map (fun a => sumR (map (f a) m)) l) = sumR (map (fun b => sumR (map (fun a => f a b) l)) m).
Proof.
  induction l as [|x t IH]; intro m; sums.
  - rewrite sumR_zero; [reflexivity|]. reflexivity.
  - rewrite IH. rewrite <- sumR_plus. reflexivity.
Qed.

Lemma sumR_perm : forall l m, Permutation l m -> sumR l = sumR m.
Proof. induction 1; sums; lra. Qed.

(** Only one term counts. *)
Lemma sumR_one : forall (f : Z -> R) l a, NoDup l -> In a l -> (forall b, In b l -> b <> a -> f b = 0) ->
  sumR (map f l) = f a.
Proof.
  induction l as [|x t IH]; intros a Hd Ha Hz; [contradiction|]. inversion Hd; subst. sums.
  destruct Ha as [->|Ha].
  - rewrite sumR_zero; [lra|]. intros b Hb. apply Hz; [right; exact Hb|]. intro E. subst. contradiction.
  - rewrite (IH a); auto.
    + rewrite (Hz x); [lra|left; reflexivity|]. intro E. subst. contradiction.
    + intros b Hb. apply Hz. right. exact Hb.
Qed.

(** A longer range adds nothing if the added terms vanish. *)
Lemma sumR_extend : forall (f : Z -> R) a b c d, (c <= a)%Z -> (a <= b)%Z -> (b <= d)%Z ->
  (forall i, (c <= i < d)%Z -> ~ (a <= i < b)%Z -> f i = 0) ->
  sumR (map f (zrange a b)) = sumR (map f (zrange c d)).
Proof.
  intros f a b c d La Hab Hb Hz.
  rewrite (zrange_app c a d), (zrange_app a b d) by lia. rewrite !map_app, !sumR_app.
  rewrite (sumR_zero _ f (zrange c a)), (sumR_zero _ f (zrange b d)); [lra| |];
    intros i Hi; apply In_zrange in Hi; apply Hz; lia.
Qed.

(** * Writes *)

Lemma cell_eqb_eq : forall a b, cell_eqb a b = true <-> a = b.
Proof. intros a b. unfold cell_eqb. destruct (list_eq_dec Z.eq_dec a b); split; auto; discriminate. Qed.

Lemma cell_eqb_refl : forall a, cell_eqb a a = true.
Proof. intro a. apply cell_eqb_eq. reflexivity. Qed.

Lemma cell_eqb_neq : forall a b, a <> b -> cell_eqb a b = false.
Proof. intros a b H. destruct (cell_eqb a b) eqn:E; auto. apply cell_eqb_eq in E. contradiction. Qed.

(** What the writes add to one cell. *)
Definition value_at (c : cell) (ws : list write) : R :=
  sumR (map (fun w : write => if cell_eqb (fst w) c then snd w else 0) ws).

Definition ok_writes (s : shape) (ws : list write) : Prop :=
  Forall (fun w : write => in_bounds s (fst w) = true) ws.

Lemma perform_spec : forall s ws img, ok_writes s ws ->
  exists out, perform s ws img = Ok out /\ forall c, out c = img c + value_at c ws.
Proof.
  induction ws as [|[c v] t IH]; intros img H; cbn [perform].
  - exists img. split; auto. intro c. unfold value_at. cbn. lra.
  - inversion H; subst. cbn [fst] in *. rewrite H2. destruct (IH (add_at img c v) H3) as (out & E & V).
    exists out. split; auto. intro c'. rewrite V. unfold add_at, value_at. cbn [map sumR fold_right fst snd].
    fold (sumR (map (fun w : write => if cell_eqb (fst w) c' then snd w else 0) t)).
    destruct (cell_eqb c c'); lra.
Qed.

Lemma render_spec : forall s ws, ok_writes s ws ->
  exists out, render s ws = Ok out /\ forall c, out c = value_at c ws.
Proof.
  intros s ws H. destruct (perform_spec s ws zeros H) as (out & E & V). exists out. split; auto.
  intro c. rewrite V. unfold zeros. lra.
Qed.

Lemma render_ok : forall s ws img, render s ws = Ok img -> ok_writes s ws.
Proof.
  intros s ws. unfold render. generalize zeros. induction ws as [|[c v] t IH]; intros z img H; [constructor|].
  cbn [perform] in H. destruct (in_bounds s c) eqn:E; [|discriminate]. constructor; [exact E|]. eapply IH. exact H.
Qed.

Lemma render_value : forall s ws img, render s ws = Ok img -> forall c, img c = value_at c ws.
Proof.
  intros s ws img H c. destruct (render_spec s ws (render_ok _ _ _ H)) as (out & E & V).
  rewrite H in E. inversion E; subst. apply V.
Qed.

Lemma value_at_app : forall c a b, value_at c (a ++ b) = value_at c a + value_at c b.
Proof. intros c a b. unfold value_at. rewrite map_app, sumR_app. reflexivity. Qed.

Lemma value_at_flat_map : forall A c (f : A -> list write) l,
  value_at c (flat_map f l) = sumR (map (fun a => value_at c (f a)) l).
Proof.
  intros A c f l. induction l as [|x t IH]; [reflexivity|]. cbn [flat_map map]. rewrite value_at_app, IH. reflexivity.
Qed.

Lemma value_at_perm : forall c a b, Permutation a b -> value_at c a = value_at c b.
Proof. intros c a b H. unfold value_at. apply sumR_perm. apply Permutation_map. exact H. Qed.

Lemma ok_flat_map : forall A s (f : A -> list write) l, (forall a, In a l -> ok_writes s (f a)) ->
  ok_writes s (flat_map f l).
Proof.
  intros A s f l H. apply Forall_forall. intros w Hw. apply in_flat_map in Hw. destruct Hw as (a & Ha & Hw).
  specialize (H a Ha). unfold ok_writes in H. rewrite Forall_forall in H. apply H. exact Hw.
Qed.

Lemma value_at_one : forall c c' v, value_at c [(c', v)] = if cell_eqb c' c then v else 0.
Proof. intros c c' v. unfold value_at. cbn. destruct (cell_eqb c' c); lra. Qed.

Lemma cell2_eqb : forall i j a b, cell_eqb [i; j] [a; b] = (i =? a)%Z && (j =? b)%Z.
Proof.
  intros i j a b. destruct (Z.eqb_spec i a), (Z.eqb_spec j b); cbn; subst;
    try apply cell_eqb_refl; apply cell_eqb_neq; congruence.
Qed.

Lemma cell3_eqb : forall i j k a b c, cell_eqb [i; j; k] [a; b; c] = (i =? a)%Z && (j =? b)%Z && (k =? c)%Z.
Proof.
  intros i j k a b c. destruct (Z.eqb_spec i a), (Z.eqb_spec j b), (Z.eqb_spec k c); cbn; subst;
    try apply cell_eqb_refl; apply cell_eqb_neq; congruence.
Qed.

(** Membership in a range, as a boolean. *)
Definition within (a b i : Z) : bool := (a <=? i)%Z && (i <? b)%Z.

Lemma within_iff : forall a b i, within a b i = true <-> (a <= i < b)%Z.
Proof. intros a b i. unfold within. rewrite andb_true_iff, Z.leb_le, Z.ltb_lt. tauto. Qed.

Lemma sumR_pick : forall (f : Z -> R) a b i,
  sumR (map (fun k => if (k =? i)%Z then f k else 0) (zrange a b)) = if within a b i then f i else 0.
Proof.
  intros f a b i. destruct (within a b i) eqn:E.
  - rewrite (sumR_one (fun k => if (k =? i)%Z then f k else 0) (zrange a b) i).
    + rewrite Z.eqb_refl. reflexivity.
    + apply NoDup_zrange.
    + apply In_zrange. apply within_iff. exact E.
    + intros k _ Hn. destruct (Z.eqb_spec k i); [contradiction|reflexivity].
  - apply sumR_zero. intros k Hk. apply In_zrange in Hk. destruct (Z.eqb_spec k i); [|reflexivity].
    subst. apply within_iff in Hk. congruence.
Qed.

Lemma value_spread2 : forall a b c d f i j,
  value_at [i; j] (spread2 (zrange a b) (zrange c d) f) = if within a b i && within c d j then f i j else 0.
Proof.
  intros a b c d f i j. unfold spread2. rewrite value_at_flat_map.
  transitivity (sumR (map (fun k => if (k =? i)%Z then (if within c d j then f k j else 0) else 0) (zrange a b))).
  - apply sumR_ext. intros k _. unfold value_at. rewrite map_map. cbn [fst snd].
    destruct (Z.eqb_spec k i).
    + subst. rewrite <- (sumR_pick (f i) c d j). apply sumR_ext. intros l _. rewrite cell2_eqb, Z.eqb_refl.
      reflexivity.
    + apply sumR_zero. intros l _. rewrite cell2_eqb. destruct (Z.eqb_spec k i); [contradiction|reflexivity].
  - rewrite (sumR_pick (fun k => if within c d j then f k j else 0)).
    destruct (within a b i), (within c d j); reflexivity.
Qed.

Lemma value_spread3 : forall a b c d e g f i j k,
  value_at [i; j; k] (spread3 (zrange a b) (zrange c d) (zrange e g) f)
  = if within a b i && within c d j && within e g k then f i j k else 0.
Proof.
  intros a b c d e g f i j k. unfold spread3. rewrite value_at_flat_map.
  transitivity (sumR (map (fun u => if (u =? i)%Z then (if within c d j && within e g k then f u j k else 0) else 0)
                          (zrange a b))).
  - apply sumR_ext. intros u _. rewrite value_at_flat_map.
    transitivity (sumR (map (fun v => if (v =? j)%Z then
        (if (u =? i)%Z then (if within e g k then f u v k else 0) else 0) else 0) (zrange c d))).
    + apply sumR_ext. intros v _. unfold value_at. rewrite map_map. cbn [fst snd].
      destruct (Z.eqb_spec v j).
      * destruct (Z.eqb_spec u i).
        { subst. rewrite <- (sumR_pick (f i j) e g k). apply sumR_ext. intros l _.
          rewrite cell3_eqb, !Z.eqb_refl. reflexivity. }
        { apply sumR_zero. intros l _. rewrite cell3_eqb. destruct (Z.eqb_spec u i); [contradiction|reflexivity]. }
      * apply sumR_zero. intros l _. rewrite cell3_eqb. destruct (Z.eqb_spec v j); [contradiction|].
        rewrite andb_false_r. reflexivity.
    + rewrite (sumR_pick (fun v => if (u =? i)%Z then (if within e g k then f u v k else 0) else 0)).
      destruct (u =? i)%Z, (within c d j), (within e g k); reflexivity.
  - rewrite (sumR_pick (fun u => if within c d j && within e g k then f u j k else 0)).
    destruct (within a b i), (within c d j), (within e g k); reflexivity.
Qed.

Lemma ok_spread2 : forall n lo hi lo' hi' f,
  ok_writes (square n) (spread2 (window n lo hi) (window n lo' hi') f).
Proof.
  intros. apply ok_flat_map. intros i Hi. apply Forall_forall. intros w Hw. apply in_map_iff in Hw.
  destruct Hw as (j & <- & Hj). unfold window in *. apply In_zrange in Hi. apply In_zrange in Hj.
  cbn [fst in_bounds square]. rewrite !andb_true_iff, !Z.leb_le, !Z.ltb_lt. repeat split; lia.
Qed.

Lemma ok_spread3 : forall n nz lo hi lo' hi' lo2 hi2 f,
  ok_writes [n; n; nz] (spread3 (window n lo hi) (window n lo' hi') (window nz lo2 hi2) f).
Proof.
  intros. apply ok_flat_map. intros i Hi. apply ok_flat_map. intros j Hj. apply Forall_forall. intros w Hw.
  apply in_map_iff in Hw.
  destruct Hw as (k & <- & Hk). unfold window in *. apply In_zrange in Hi. apply In_zrange in Hj. apply In_zrange in Hk.
  cbn [fst in_bounds]. rewrite !andb_true_iff, !Z.leb_le, !Z.ltb_lt. repeat split; lia.
Qed.

Lemma ok_one : forall s c v, in_bounds s c = true -> ok_writes s [(c, v)].
Proof. intros s c v H. constructor; [exact H|constructor]. Qed.

(** * The total of an image *)

Lemma total2_value : forall n ws, ok_writes (square n) ws ->
  total2 n (fun c => value_at c ws) = sumR (map snd ws).
Proof.
  intros n ws H. unfold total2. induction H as [|[c v] t Hc Ht IH].
  - cbn [map]. rewrite sumR_zero; [reflexivity|]. intros i _. apply sumR_zero. reflexivity.
  - cbn [map snd sumR fold_right]. fold (sumR (map snd t)). rewrite <- IH. clear IH. cbn [fst] in Hc.
    destruct c as [|a [|b [|? ?]]]; cbn in Hc; rewrite ?andb_false_r in Hc; try discriminate.
    rewrite !andb_true_iff, !Z.leb_le, !Z.ltb_lt in Hc. destruct Hc as ((A1 & A2) & (B1 & B2) & _).
    transitivity (sumR (map (fun i => (if (i =? a)%Z then v else 0) + sumR (map (fun j => value_at [i; j] t) (zrange 0 n))) (zrange 0 n))).
    + apply sumR_ext. intros i _.
      transitivity (sumR (map (fun j => (if (j =? b)%Z then (if (i =? a)%Z then v else 0) else 0) + value_at [i; j] t) (zrange 0 n))).
      * apply sumR_ext. intros j _. unfold value_at at 1. cbn [map sumR fold_right fst snd].
        fold (sumR (map (fun w : write => if cell_eqb (fst w) [i; j] then snd w else 0) t)). fold (value_at [i; j] t).
        rewrite cell2_eqb, (Z.eqb_sym a i), (Z.eqb_sym b j). destruct (i =? a)%Z, (j =? b)%Z; cbn; lra.
      * rewrite sumR_plus. f_equal. rewrite (sumR_pick (fun _ => if (i =? a)%Z then v else 0)).
        replace (within 0 n b) with true; [reflexivity|]. symmetry. apply within_iff. lia.
    + rewrite sumR_plus. f_equal. rewrite (sumR_pick (fun _ => v)).
      replace (within 0 n a) with true; [reflexivity|]. symmetry. apply within_iff. lia.
Qed.

Lemma total2_render : forall n ws img, render (square n) ws = Ok img -> total2 n img = sumR (map snd ws).
Proof.
  intros n ws img H. rewrite <- (total2_value n ws (render_ok _ _ _ H)). unfold total2.
  apply sumR_ext. intros i _. apply sumR_ext. intros j _. apply (render_value _ _ _ H).
Qed.

(** C136: quotients of pictures that are added up with rounded numbers.

    The docs make maps of averages by dividing two pictures (C135 with exact numbers).  Here both are drawn with
    the loops of RoundModel.v, whose numbers are rounded to double precision, and stored in the type of the image. *)
From Coq Require Import List ZArith QArith Lia Lra Bool Floats.SpecFloat Reals Permutation Qreals.
From Flocq Require Import Core.
From Verif Require Import Base BaseLemmas RoundModel RoundFloatModel RoundTripProofs RoundSumModel RoundSumSpec RoundSumProofs
  RoundSumTheorems RoundFloatTheorems WrapSpec WrapTheorems KroundTheorems.
From Verif Require VisModel RoundWeightTheorems.
Import ListNotations.
Open Scope R_scope.

(** * Vocabulary *)

(** A particle with another value of the pictured quantity; the rows [l] of a dataset with the quantity [q]. *)
Definition with_weight (m : R) (p : rpart rounded) : rpart rounded := @mk_rpart rounded (r_x p) (r_y p) (r_z p) m (r_h p).
Definition rows {B} (pos : B -> rpart rounded) (q : B -> R) (l : list B) : list (rpart rounded) := map (fun x => with_weight (q x) (pos x)) l.

Definition hsml (p : rpart rounded) : R := r_h p.

(** A backend that writes, for a particle of the quantity [m], to pixels that do not depend on [m] numbers that are [m]
    times a weight that does not depend on it and is not negative, up to two roundings. *)
Definition weighted_write (m : R) (k w : list Z * R) : Prop := fst w = fst k /\ exists t, fac 2 t /\ snd w = m * snd k * t.
Definition family (F : R -> list (list Z * R)) : Prop :=
  exists ks, Forall (fun k => 0 <= snd k) ks /\ forall m, 0 <= m -> Forall2 (weighted_write m) ks (F m).
Definition weighing (f : rpart rounded -> list (rwrite rounded)) : Prop :=
  forall p, 0 < hsml p -> family (fun m => f (with_weight m p)).

(** * Quotients *)

Definition comparable (lo hi : R) (w w' : list Z * R) : Prop :=
  fst w = fst w' /\ 0 <= snd w /\ 0 <= snd w' /\ lo * snd w <= (1 + 5 * u53) * snd w' /\ snd w' <= hi * (1 + 5 * u53) * snd w.

Lemma fac_ratio s t : fac 2 s -> fac 2 t -> s <= (1 + 5 * u53) * t.
Proof.
  intros [_ A] [B _]. pose proof u53_small as U. apply Rle_trans with (1 := A). apply Rle_trans with ((1 + 5 * u53) * (1 - u53) ^ 2).
  - cbn [pow]. nra.
  - apply Rmult_le_compat_l; lra.
Qed.

Lemma family_comparable F m q lo hi : family F -> 0 <= lo -> 0 <= m -> lo * m <= q <= hi * m -> Forall2 (comparable lo hi) (F m) (F q).
Proof.
  intros [ks [P W]] L M Q. assert (Q0 : 0 <= q). { assert (0 <= lo * m) by (apply Rmult_le_pos; assumption). lra. }
  pose proof (W m M) as Wm. pose proof (W q Q0) as Wq. clear W. revert Wm Wq. generalize (F m) (F q). clear F.
  induction P as [|k ks Pk P IH]; intros ws ws' Wm Wq; inversion Wm as [|? w ? ws1 [E1 [t [Ft V]]] T1]; inversion Wq as [|? w' ? ws2 [E2 [t' [Ft' V']]] T2];
    subst; constructor; [|apply IH; assumption].
  pose proof (fac_pos _ _ Ft). pose proof (fac_pos _ _ Ft'). pose proof u53_small.
  assert (A : 0 <= m * snd k) by (apply Rmult_le_pos; assumption). assert (B : 0 <= q * snd k) by (apply Rmult_le_pos; assumption).
  unfold comparable. rewrite V, V'. split; [congruence|split; [apply Rmult_le_pos; lra|split; [apply Rmult_le_pos; lra|]]].
  pose proof (fac_ratio t t' Ft Ft') as R1. pose proof (fac_ratio t' t Ft' Ft) as R2.
  assert (C1 : lo * m * snd k <= q * snd k) by (apply Rmult_le_compat_r; lra).
  assert (C2 : q * snd k <= hi * m * snd k) by (apply Rmult_le_compat_r; lra).
  assert (D : 0 <= lo * m * snd k) by (rewrite Rmult_assoc; apply Rmult_le_pos; assumption).
  split.
  - apply Rle_trans with (lo * m * snd k * ((1 + 5 * u53) * t')).
    + replace (lo * (m * snd k * t)) with (lo * m * snd k * t) by ring. apply Rmult_le_compat_l; assumption.
    + replace ((1 + 5 * u53) * (q * snd k * t')) with (q * snd k * ((1 + 5 * u53) * t')) by ring.
      apply Rmult_le_compat_r; [apply Rmult_le_pos; lra|exact C1].
  - apply Rle_trans with (q * snd k * ((1 + 5 * u53) * t)); [apply Rmult_le_compat_l; assumption|].
    replace (hi * (1 + 5 * u53) * (m * snd k * t)) with (hi * m * snd k * ((1 + 5 * u53) * t)) by ring.
    apply Rmult_le_compat_r; [apply Rmult_le_pos; lra|exact C2].
Qed.

Lemma rows_comparable {B} f (pos : B -> rpart rounded) m q l lo hi : weighing f -> 0 <= lo -> (forall x, In x l -> 0 < hsml (pos x)) ->
  (forall x, In x l -> 0 <= m x /\ lo * m x <= q x <= hi * m x) ->
  Forall2 (comparable lo hi) (flat_map f (rows pos m l)) (flat_map f (rows pos q l)).
Proof.
  intros W L H Q. induction l as [|x l IH]; [constructor|]. cbn [rows map flat_map]. apply Forall2_app.
  - destruct (Q x (or_introl eq_refl)) as [Q1 Q2]. exact (family_comparable _ (m x) (q x) lo hi (W (pos x) (H x (or_introl eq_refl))) L Q1 Q2).
  - apply IH; intros y I; [apply H|apply Q]; right; exact I.
Qed.

Lemma comparable_sums lo hi c ws ws' : Forall2 (comparable lo hi) ws ws' ->
  times c ws = times c ws' /\ summed Rabs c ws = summed (fun v => v) c ws /\ summed Rabs c ws' = summed (fun v => v) c ws' /\
  lo * summed (fun v => v) c ws <= (1 + 5 * u53) * summed (fun v => v) c ws' /\
  summed (fun v => v) c ws' <= hi * (1 + 5 * u53) * summed (fun v => v) c ws.
Proof.
  intro H. induction H as [|[d v] [d' v'] ws ws' (E & P & P' & A & B) H IH]; [cbn; repeat split; lra|]. cbn [fst snd] in *. subst d'.
  destruct IH as (T & S & S' & I & J). cbn [times summed]. destruct (list_eq_dec Z.eq_dec d c).
  - rewrite T, S, S', !Rabs_pos_eq by assumption. repeat split; lra.
  - rewrite S, S'. repeat split; [exact T|lra..].
Qed.

(** [e] is the relative error of both sums; see C115_roundings for its size. *)
Definition quotient_bounds (lo hi e I I' : R) : Prop :=
  0 <= I /\ 0 <= I' /\ lo * (1 - e) * I <= (1 + 5 * u53) * (1 + e) * I' /\ (1 - e) * I' <= hi * (1 + 5 * u53) * (1 + e) * I.

Lemma bounds_of_sums lo hi e I I' S S' : 0 <= lo -> 0 <= hi -> 0 <= e -> 0 <= I -> 0 <= I' -> 0 <= S -> 0 <= S' ->
  Rabs (I - S) <= e * S -> Rabs (I' - S') <= e * S' -> lo * S <= (1 + 5 * u53) * S' -> S' <= hi * (1 + 5 * u53) * S -> quotient_bounds lo hi e I I'.
Proof.
  unfold quotient_bounds. intros Hl Hh He HI HI' HS HS' A B C D. pose proof u53_small as U. apply Rabs_le_inv in A. apply Rabs_le_inv in B.
  assert (G : 0 < 1 + 5 * u53) by lra. set (g := 1 + 5 * u53) in *. clearbody g.
  assert (P1 : 0 <= g * (1 + e) * I') by (apply Rmult_le_pos; [apply Rmult_le_pos; lra|exact HI']).
  assert (P2 : 0 <= hi * g * (1 + e) * I) by (apply Rmult_le_pos; [apply Rmult_le_pos; [apply Rmult_le_pos; lra|lra]|exact HI]).
  split; [exact HI|split; [exact HI'|]]. destruct (Rle_lt_dec e 1) as [E|E].
  - split.
    + apply Rle_trans with ((1 - e) * (lo * ((1 + e) * S))).
      { replace (lo * (1 - e) * I) with ((1 - e) * (lo * I)) by ring. apply Rmult_le_compat_l; [lra|]. apply Rmult_le_compat_l; lra. }
      replace ((1 - e) * (lo * ((1 + e) * S))) with ((1 - e) * (1 + e) * (lo * S)) by ring.
      apply Rle_trans with ((1 - e) * (1 + e) * (g * S')); [apply Rmult_le_compat_l; [apply Rmult_le_pos; lra|exact C]|].
      replace ((1 - e) * (1 + e) * (g * S')) with (g * (1 + e) * ((1 - e) * S')) by ring.
      apply Rmult_le_compat_l; [apply Rmult_le_pos; lra|lra].
    + apply Rle_trans with ((1 - e) * ((1 + e) * S')); [apply Rmult_le_compat_l; lra|].
      apply Rle_trans with ((1 - e) * ((1 + e) * (hi * g * S))); [apply Rmult_le_compat_l; [lra|]; apply Rmult_le_compat_l; lra|].
      replace ((1 - e) * ((1 + e) * (hi * g * S))) with (hi * g * (1 + e) * ((1 - e) * S)) by ring.
      apply Rmult_le_compat_l; [apply Rmult_le_pos; [apply Rmult_le_pos; lra|lra]|lra].
  - split.
    + eapply Rle_trans; [|exact P1]. replace (lo * (1 - e) * I) with (- (lo * (e - 1) * I)) by ring.
      assert (0 <= lo * (e - 1) * I) by (apply Rmult_le_pos; [apply Rmult_le_pos; lra|exact HI]). lra.
    + eapply Rle_trans; [|exact P2]. replace ((1 - e) * I') with (- ((e - 1) * I')) by ring.
      assert (0 <= (e - 1) * I') by (apply Rmult_le_pos; lra). lra.
Qed.

Lemma comparable_nonneg lo hi ws ws' : Forall2 (comparable lo hi) ws ws' -> (forall w, In w ws -> 0 <= snd w) /\ (forall w, In w ws' -> 0 <= snd w).
Proof.
  intro C. induction C as [|w w' ws ws' (E & P & P' & _) C [I J]]; [split; intros w []|].
  split; intros v [<-|K]; auto.
Qed.

(** The serial functions: [k] is how often the pixel is written to. *)
Theorem C136_quotient : forall (B : Type) store u f (pos : B -> rpart rounded) m q l lo hi c, stored store u -> weighing f ->
  0 <= lo -> 0 <= hi -> (forall x, In x l -> 0 < hsml (pos x)) -> (forall x, In x l -> 0 <= m x /\ lo * m x <= q x <= hi * m x) ->
  quotient_bounds lo hi ((1 + u) ^ times c (flat_map f (rows pos m l)) - 1)
    (draw rounded store (flat_map f (rows pos m l)) c) (draw rounded store (flat_map f (rows pos q l)) c).
Proof.
  intros B store u f pos m q l lo hi c St W L Hi H Q. pose proof (rows_comparable f pos m q l lo hi W L H Q) as C.
  set (ws := flat_map f (rows pos m l)) in *. set (ws' := flat_map f (rows pos q l)) in *.
  destruct (comparable_sums lo hi c ws ws' C) as (T & S & S' & I & J).
  pose proof (C115_pixel store u ws c St) as X. pose proof (C115_pixel store u ws' c St) as X'. unfold within_roundings in *.
  change (list (list Z * R)) with (list (rwrite rounded)) in *.
  rewrite <- T in X'.
  assert (U : 0 <= u) by (apply (u_pos store u St)).
  destruct (comparable_nonneg lo hi ws ws' C) as [N N'].
  apply (bounds_of_sums lo hi _ _ _ (summed (fun v => v) c ws) (summed (fun v => v) c ws')); try assumption.
  - assert (1 <= (1 + u) ^ times c ws) by (apply pow_R1_Rle; lra). lra.
  - apply (draw_nonneg store u St). exact N.
  - apply (draw_nonneg store u St). exact N'.
  - rewrite <- S. apply summed_nonneg.
  - rewrite <- S'. apply summed_nonneg.
  - rewrite <- S at 2. exact X.
  - rewrite <- S' at 2. exact X'.
Qed.

Lemma pictures_nonneg {B} store u (pic : B -> picture rounded) l c : stored store u -> (forall b, 0 <= pic b c) ->
  0 <= fold_left (fun out b => plus rounded store out (pic b)) l (blank rounded) c.
Proof.
  intros St H. induction l as [|b l IH] using rev_ind.
  - cbn [fold_left]. unfold blank. rewrite zero_rounded. lra.
  - rewrite fold_left_app. cbn [fold_left]. rewrite plus_value. rewrite <- (step_zero store u St). apply (step_le store u St).
    apply Rplus_le_le_0_compat; [exact IH|apply H].
Qed.
Lemma in_slice {B} (l : list B) r x : In x (VisModel.slice l r) -> In x l.
Proof.
  unfold VisModel.slice. set (a := Z.to_nat _). set (b := Z.to_nat _). intro I.
  rewrite <- (firstn_skipn b l). apply in_or_app. right. rewrite <- (firstn_skipn a (skipn b l)). apply in_or_app. left. exact I.
Qed.

(** The parallel functions, however numba distributes the turns of the threads. *)
Theorem C136_parallel : forall (B : Type) store u f (pos : B -> rpart rounded) m q l lo hi c threads groups, stored store u -> weighing f ->
  0 <= lo -> 0 <= hi -> (forall x, In x l -> 0 < hsml (pos x)) -> (forall x, In x l -> 0 <= m x /\ lo * m x <= q x <= hi * m x) ->
  (1 <= threads)%Z -> Permutation (concat groups) (zrange 0 threads) ->
  quotient_bounds lo hi ((1 + u) ^ (times c (flat_map f (rows pos m l)) + Z.to_nat threads + length groups) - 1)
    (parallel rounded store f (rows pos m l) threads groups c) (parallel rounded store f (rows pos q l) threads groups c).
Proof.
  intros B store u f pos m q l lo hi c threads groups St W L Hi H Q Th P. pose proof (rows_comparable f pos m q l lo hi W L H Q) as C.
  assert (N : (forall w, In w (flat_map f (rows pos m l)) -> 0 <= snd w) /\ (forall w, In w (flat_map f (rows pos q l)) -> 0 <= snd w))
    by exact (comparable_nonneg lo hi _ _ C).
  destruct N as [N N'].
  assert (G : forall ps, (forall w, In w (flat_map f ps) -> 0 <= snd w) -> 0 <= parallel rounded store f ps threads groups c).
  { intros ps Hp. unfold parallel. apply (pictures_nonneg store u); [exact St|]. intro ts. unfold worker.
    apply (pictures_nonneg store u); [exact St|]. intro t. unfold thread_picture. apply (draw_nonneg store u St). intros w I. apply Hp.
    apply in_flat_map in I as (p & Ip & Iw). apply in_flat_map. exists p. split; [|exact Iw]. eapply in_slice. exact Ip. }
  pose proof (G _ N) as G1. pose proof (G _ N') as G2. clear G.
  set (ws := flat_map f (rows pos m l)) in *. set (ws' := flat_map f (rows pos q l)) in *.
  destruct (comparable_sums lo hi c ws ws' C) as (T & S & S' & I & J).
  assert (X : Rabs (parallel rounded store f (rows pos m l) threads groups c - summed (fun v => v) c ws)
    <= ((1 + u) ^ (times c ws + Z.to_nat threads + length groups) - 1) * summed Rabs c ws)
    by exact (C115_parallel store u f (rows pos m l) threads groups c St Th P).
  assert (X' : Rabs (parallel rounded store f (rows pos q l) threads groups c - summed (fun v => v) c ws')
    <= ((1 + u) ^ (times c ws' + Z.to_nat threads + length groups) - 1) * summed Rabs c ws')
    by exact (C115_parallel store u f (rows pos q l) threads groups c St Th P).
  rewrite <- T in X'.
  assert (U : 0 <= u) by (apply (u_pos store u St)).
  apply (bounds_of_sums lo hi _ _ _ (summed (fun v => v) c ws) (summed (fun v => v) c ws')); try assumption.
  - set (k := (times c ws + _ + _)%nat). assert (1 <= (1 + u) ^ k) by (apply pow_R1_Rle; lra). lra.
  - rewrite <- S. apply summed_nonneg.
  - rewrite <- S'. apply summed_nonneg.
  - rewrite <- S at 2. exact X.
  - rewrite <- S' at 2. exact X'.
Qed.

(** What the bounds say about the exact quotient of the two pixels. *)
Theorem C136_bounds : forall lo hi e I I', quotient_bounds lo hi e I I' -> 0 <= e < 1 -> I <> 0 ->
  lo * ((1 - e) / (1 + e)) / (1 + 5 * u53) <= I' / I <= hi * ((1 + e) / (1 - e)) * (1 + 5 * u53).
Proof.
  intros lo hi e I I' (P & P' & A & D) E N. pose proof u53_small as U. assert (G : 0 < 1 + 5 * u53) by lra.
  set (g := 1 + 5 * u53) in *. clearbody g. assert (0 < I) by lra. split.
  - apply Rmult_le_reg_r with (I * (g * (1 + e))); [apply Rmult_lt_0_compat; [lra|apply Rmult_lt_0_compat; lra]|].
    replace (lo * ((1 - e) / (1 + e)) / g * (I * (g * (1 + e)))) with (lo * (1 - e) * I) by (field; lra).
    replace (I' / I * (I * (g * (1 + e)))) with (g * (1 + e) * I') by (field; lra). exact A.
  - apply Rmult_le_reg_r with (I * (1 - e)); [apply Rmult_lt_0_compat; lra|].
    replace (I' / I * (I * (1 - e))) with ((1 - e) * I') by (field; lra).
    replace (hi * ((1 + e) / (1 - e)) * g * (I * (1 - e))) with (hi * g * (1 + e) * I) by (field; lra). exact D.
Qed.

(** * The backends *)

Lemma family_nil : family (fun _ => []).
Proof. exists []. split; [constructor|]. intros. constructor. Qed.
Lemma family_app F G : family F -> family G -> family (fun m => F m ++ G m).
Proof.
  intros [ks [P W]] [ks' [P' W']]. exists (ks ++ ks'). split; [apply Forall_app; split; assumption|].
  intros m M. apply Forall2_app; [apply W|apply W']; exact M.
Qed.
Lemma family_flat {B} (F : B -> R -> list (list Z * R)) l : (forall b, family (F b)) -> family (fun m => flat_map (fun b => F b m) l).
Proof. intro H. induction l as [|b l IH]; [apply family_nil|]. cbn [flat_map]. apply (family_app (F b)); [apply H|exact IH]. Qed.
Lemma family_if (b : bool) F G : family F -> family G -> family (fun m => if b then F m else G m).
Proof. intros. destruct b; assumption. Qed.

(** Values: [m] times a weight, up to two roundings. *)
Definition value_family (g : R -> R) : Prop := exists k, 0 <= k /\ forall m, 0 <= m -> exists t, fac 2 t /\ g m = m * k * t.
Lemma family_one c g : value_family g -> family (fun m => [(c, g m)]).
Proof.
  intros [k [P W]]. exists [(c, k)]. split; [constructor; [exact P|constructor]|]. intros m M. constructor; [|constructor].
  split; [reflexivity|]. cbn [snd]. apply W, M.
Qed.
Lemma family_map {B} (c : B -> list Z) (g : B -> R -> R) l : (forall b, value_family (g b)) -> family (fun m => map (fun b => (c b, g b m)) l).
Proof.
  intro H. induction l as [|b l IH]; [apply family_nil|]. cbn [map]. apply (family_app (fun m => [(c b, g b m)]) (fun m => map (fun b => (c b, g b m)) l)); [|exact IH].
  apply family_one, H.
Qed.
Lemma family_over2 xs ys (g : R -> Z -> Z -> R) : (forall i j, value_family (fun m => g m i j)) -> family (fun m => over2 rounded xs ys (g m)).
Proof. intro H. unfold over2. apply (family_flat (fun i m => map (fun j => ([i; j], g m i j)) ys)). intro i. apply (family_map (fun j => [i; j]) (fun j m => g m i j)). intro j. apply H. Qed.
Lemma family_over3 xs ys zs (g : R -> Z -> Z -> Z -> R) : (forall i j k, value_family (fun m => g m i j k)) -> family (fun m => over3 rounded xs ys zs (g m)).
Proof.
  intro H. unfold over3. apply (family_flat (fun i m => flat_map (fun j => map (fun k => ([i; j; k], g m i j k)) zs) ys)). intro i.
  apply (family_flat (fun j m => map (fun k => ([i; j; k], g m i j k)) zs)). intro j.
  apply (family_map (fun k => [i; j; k]) (fun k m => g m i j k)). intro k. apply H.
Qed.

Lemma mul_value k : 0 <= k -> value_family (fun m => mul rounded m k).
Proof.
  intro P. exists k. split; [exact P|]. intros m M. cbn [rounded mul]. unfold rnd2.
  destruct (fac_rnd (m * k)) as [t [Ft ->]]; [apply Rmult_le_pos; assumption|]. exists t. split; [|reflexivity]. apply (fac_mono 1); [lia|exact Ft].
Qed.
Lemma mul2_value k k' : 0 <= k -> 0 <= k' -> value_family (fun m => mul rounded (mul rounded m k) k').
Proof.
  intros P P'. exists (k * k'). split; [apply Rmult_le_pos; assumption|]. intros m M. cbn [rounded mul]. unfold rnd2.
  destruct (fac_rnd (m * k)) as [t [Ft ->]]; [apply Rmult_le_pos; assumption|]. pose proof (fac_pos _ _ Ft).
  destruct (fac_rnd (m * k * t * k')) as [s [Fs ->]]; [apply Rmult_le_pos; [apply Rmult_le_pos; [apply Rmult_le_pos; assumption|lra]|assumption]|].
  exists (t * s). split; [exact (fac_mult 1 1 t s Ft Fs)|]. ring.
Qed.

(** Signs of rounded numbers. *)
Lemma rnd_nonneg p x : Prec_gt_0 p -> 0 <= x -> 0 <= rnd p x.
Proof. intros G H. unfold rnd. rewrite <- (round_0 radix2 (FLX_exp p) ZnearestE). apply round_le; [typeclasses eauto..|exact H]. Qed.
Lemma mul_nonneg x y : 0 <= x -> 0 <= y -> 0 <= mul rounded x y.
Proof. intros. cbn [rounded mul]. unfold rnd2. apply rnd_nonneg; [reflexivity|]. apply Rmult_le_pos; assumption. Qed.
Lemma add_nonneg x y : 0 <= x -> 0 <= y -> 0 <= add rounded x y.
Proof. intros. cbn [rounded add]. unfold rnd2. apply rnd_nonneg; [reflexivity|]. lra. Qed.
Lemma div_nonneg x y : 0 <= x -> 0 <= y -> 0 <= div rounded x y.
Proof.
  intros. cbn [rounded div]. unfold rnd2. apply rnd_nonneg; [reflexivity|]. apply Rmult_le_pos; [assumption|].
  destruct (Req_dec y 0) as [->|N]; [rewrite Rinv_0; lra|]. apply Rlt_le, Rinv_0_lt_compat. lra.
Qed.
Lemma root_nonneg x : 0 <= root rounded x.
Proof. cbn [rounded root]. apply rnd_nonneg; [reflexivity|apply sqrt_pos]. Qed.
Lemma single_nonneg x : 0 <= x -> 0 <= single rounded x.
Proof. intro. cbn [rounded single]. apply rnd_nonneg; [reflexivity|assumption]. Qed.
Lemma square_nonneg x : 0 <= mul rounded x x.
Proof. cbn [rounded mul]. unfold rnd2. apply rnd_nonneg; [reflexivity|]. apply Rle_0_sqr. Qed.
Lemma rnd_pos p x : Prec_gt_0 p -> (1 < p)%Z -> 0 < x -> 0 < rnd p x.
Proof.
  intros G P H. pose proof (rnd_small p x P) as E. rewrite (Rabs_pos_eq x) in E by lra. apply Rabs_le_inv in E.
  assert (S : eps p <= / 2). { unfold eps. change (/ 2) with (bpow radix2 (-1)). apply bpow_le. lia. }
  assert (x * eps p <= x * / 2) by (apply Rmult_le_compat_l; lra). lra.
Qed.
Lemma width_pos g h : 0 < g -> 0 < h -> 0 < mul rounded g h.
Proof. intros. cbn [rounded mul]. unfold rnd2. apply rnd_pos; [reflexivity|lia|]. apply Rmult_lt_0_compat; assumption. Qed.
Lemma lit_pos q : 0 < Q2R q -> 0 < lit rounded q.
Proof. intro. cbn [rounded lit]. apply rnd_pos; [reflexivity|lia|assumption]. Qed.
Lemma gamma2_pos : 0 < gamma2 rounded.
Proof. unfold gamma2. cbn [rounded single]. apply rnd_pos; [reflexivity|lia|]. apply lit_pos. unfold Q2R. cbn. lra. Qed.
Lemma gamma3_pos : 0 < gamma3 rounded.
Proof. unfold gamma3. apply lit_pos. unfold Q2R. cbn. lra. Qed.
Lemma kernel2_single_nonneg r w : 0 < w -> 0 <= r -> 0 <= kernel2 rounded (single rounded) r w.
Proof. intros W R0. apply C133_nonnegative; [exact R0|exact W|]. intros x X. apply single_nonneg. exact X. Qed.
Lemma kernel2_double_nonneg r w : 0 < w -> 0 <= r -> 0 <= kernel2 rounded (double rounded) r w.
Proof. intros W R0. apply C133_nonnegative; [exact R0|exact W|]. intros x X. exact X. Qed.
Lemma kernel3_nonneg r w : 0 < w -> 0 <= r -> 0 <= kernel3 rounded r w.
Proof. intros W R0. apply (C133_nonnegative (fun x => x)); [exact R0|exact W|]. auto. Qed.
Lemma zero_nonneg : 0 <= zero rounded. Proof. rewrite zero_rounded. lra. Qed.
Lemma fold_nonneg {B} (g : B -> R -> R) l z : (forall b t, 0 <= t -> 0 <= g b t) -> 0 <= z -> 0 <= fold_left (fun t b => g b t) l z.
Proof. intros H. revert z. induction l as [|b l IH]; intros z Z0; [exact Z0|]. cbn [fold_left]. apply IH. apply H. exact Z0. Qed.
Lemma one_pos : 0 < one rounded. Proof. unfold one. apply lit_pos. unfold Q2R. cbn. lra. Qed.

Lemma family_copies2 bx by_ (f : R -> R -> R -> list (rwrite rounded)) p : (forall x y, family (fun m => f m x y)) ->
  family (fun m => copies2 rounded bx by_ (f m) (with_weight m p)).
Proof.
  intro H. unfold copies2. cbn [with_weight r_x r_y].
  apply (family_flat (fun sx m => flat_map (fun sy => f m (shifted rounded (r_x p) sx bx) (shifted rounded (r_y p) sy by_)) (shifts rounded by_))). intro sx.
  apply (family_flat (fun sy m => f m (shifted rounded (r_x p) sx bx) (shifted rounded (r_y p) sy by_))). intro sy. apply H.
Qed.
Lemma family_copies3 sh bx by_ bz (f : R -> R -> R -> R -> list (rwrite rounded)) p : (forall x y z, family (fun m => f m x y z)) ->
  family (fun m => copies3 rounded sh bx by_ bz (f m) (with_weight m p)).
Proof.
  intro H. unfold copies3. cbn [with_weight r_x r_y r_z].
  apply (family_flat (fun sx m => flat_map (fun sy => flat_map (fun sz =>
    f m (shifted rounded (r_x p) sx bx) (shifted rounded (r_y p) sy by_) (shifted rounded (r_z p) sz bz)) (sh bz)) (sh by_))). intro sx.
  apply (family_flat (fun sy m => flat_map (fun sz =>
    f m (shifted rounded (r_x p) sx bx) (shifted rounded (r_y p) sy by_) (shifted rounded (r_z p) sz bz)) (sh bz))). intro sy.
  apply (family_flat (fun sz m => f m (shifted rounded (r_x p) sx bx) (shifted rounded (r_y p) sy by_) (shifted rounded (r_z p) sz bz))). intro sz. apply H.
Qed.

Lemma of_int_nonneg n : (0 <= n)%Z -> 0 <= of_int rounded n. Proof. intro. cbn [rounded of_int]. apply IZR_le. assumption. Qed.

Lemma fast_family n h x y : (0 <= n)%Z -> 0 < h -> family (fun m => fast_at rounded n m h x y).
Proof.
  intros N H. unfold fast_at. cbv zeta. apply family_if; [apply family_nil|]. apply family_if.
  - apply family_if; [|apply family_nil]. apply (family_one _ (fun m => mul rounded m _)). apply mul_value. apply of_int_nonneg. nia.
  - apply (family_over2 _ _ (fun m i j => mul rounded m _)). intros i j. apply mul_value. apply kernel2_single_nonneg; [|apply root_nonneg].
    apply width_pos; [apply gamma2_pos|exact H].
Qed.
Lemma histogram_family n x y : family (fun m => histogram_at rounded n m x y).
Proof.
  unfold histogram_at. cbv zeta. apply family_if; [|apply family_nil]. apply (family_one _ (fun m => mul rounded m _)). apply mul_value. apply square_nonneg.
Qed.
Lemma renormalised_family n h x y : 0 < h -> family (fun m => renormalised_at rounded n m h x y).
Proof.
  intro H. unfold renormalised_at. cbv zeta. apply family_if; [apply family_nil|].
  assert (W : 0 < mul rounded (gamma2 rounded) h) by (apply width_pos; [apply gamma2_pos|exact H]).
  apply family_if.
  - apply family_if; [|apply family_nil]. apply (family_one _ (fun m => mul rounded m _)). apply mul_value. apply square_nonneg.
  - apply (family_over2 _ _ (fun m i j => mul rounded m _)). intros i j. apply mul_value. apply mul_nonneg; [|apply kernel2_single_nonneg; [exact W|apply root_nonneg]].
    apply div_nonneg; [apply square_nonneg|].
    apply (fold_nonneg (fun i t => fold_left (fun t j => add rounded t _) _ t)); [|apply single_nonneg; apply zero_nonneg].
    intros a t T. apply (fold_nonneg (fun j t => add rounded t _)); [|exact T]. intros b t' T'. apply add_nonneg; [exact T'|].
    apply kernel2_single_nonneg; [exact W|apply root_nonneg].
Qed.
Lemma reference_family n h x y0 by_ sh : 0 < h -> family (fun m => reference_loop rounded n m h x y0 by_ sh).
Proof.
  intro H. induction sh as [|sy sh IH]; [apply family_nil|]. cbn [reference_loop]. cbv zeta. apply family_if; [exact IH|].
  apply family_if; [apply family_nil|].
  refine (family_app _ (fun m => reference_loop rounded n m h x y0 by_ sh) _ IH).
  apply (family_over2 _ _ (fun m i j => mul rounded m _)). intros i j. apply mul_value. apply kernel2_double_nonneg; [|apply root_nonneg].
  apply width_pos; [apply gamma2_pos|exact H].
Qed.
Lemma dither_raw_nonneg d a b : (0 < d)%Z -> 0 <= dither_raw rounded d a b.
Proof. intro D. unfold dither_raw. cbv zeta. apply kernel2_double_nonneg; [|apply root_nonneg]. cbn [rounded double of_int]. apply IZR_lt. exact D. Qed.
Lemma subsampled_family ev d n h x y : (0 < d)%Z -> 0 < h -> family (fun m => subsampled_at rounded ev d n m h x y).
Proof.
  intros D H. unfold subsampled_at. cbv zeta. apply family_if; [apply family_nil|].
  assert (W : 0 < mul rounded (gamma2 rounded) h) by (apply width_pos; [apply gamma2_pos|exact H]).
  apply family_if.
  - apply family_if.
    + apply (family_one _ (fun m => mul rounded m _)). apply mul_value. apply square_nonneg.
    + refine (family_flat _ _ _). intro a. cbn beta.
      refine (family_flat _ _ _). intro b. cbn beta. apply family_if; [|apply family_nil].
      apply (family_one _ (fun m => mul rounded m _)). apply mul_value. unfold dithered. apply mul_nonneg; [apply dither_raw_nonneg; exact D|].
      apply div_nonneg; [apply square_nonneg|]. unfold dither_total.
      apply (fold_nonneg (fun i t => fold_left (fun t j => add rounded t _) _ t)); [|apply zero_nonneg].
      intros i t T. apply (fold_nonneg (fun j t => add rounded t _)); [|exact T]. intros j t' T'. apply add_nonneg; [exact T'|]. apply dither_raw_nonneg. exact D.
  - apply (family_over2 _ _ (fun m i j => mul rounded (mul rounded m _) _)). intros i j. apply mul2_value; [|apply square_nonneg].
    unfold subsample. cbv zeta.
    apply (fold_nonneg (fun i t => fold_left (fun t j => add rounded t _) _ t)); [|apply zero_nonneg].
    intros a t T. apply (fold_nonneg (fun j t => add rounded t _)); [|exact T]. intros b t' T'. apply add_nonneg; [exact T'|].
    apply kernel2_double_nonneg; [exact W|apply root_nonneg].
Qed.
Lemma slice_family n zs h x y z : 0 < h -> family (fun m => slice_at rounded n zs m h x y z).
Proof.
  intro H. unfold slice_at. cbv zeta. apply family_if; [apply family_nil|].
  apply (family_over2 _ _ (fun m i j => mul rounded m _)). intros i j. apply mul_value. apply kernel3_nonneg; [|apply root_nonneg].
  apply width_pos; [apply gamma3_pos|exact H].
Qed.
Lemma voxel_family nz n h x y z : (0 <= n)%Z -> (0 <= nz)%Z -> 0 < h -> family (fun m => voxel_at rounded nz n m h x y z).
Proof.
  intros N Nz H. unfold voxel_at. cbv zeta. apply family_if; [apply family_nil|]. apply family_if.
  - apply family_if; [|apply family_nil]. apply (family_one _ (fun m => mul rounded m _)). apply mul_value.
    apply mul_nonneg; [apply square_nonneg|]. apply single_nonneg, of_int_nonneg. exact Nz.
  - apply (family_over3 _ _ _ (fun m i j k => mul rounded m _)). intros i j k. apply mul_value. apply kernel3_nonneg; [|apply root_nonneg].
    apply width_pos; [apply gamma3_pos|exact H].
Qed.

(** Every backend writes the quantity times weights, up to two roundings; resolutions are not negative. *)
Theorem C136_backends : forall n bx by_ bz ratio evals dither zs fold, (0 <= n)%Z -> (0 < ratio)%Z -> (0 < dither)%Z -> 0 <= fold ->
  weighing (fast_part rounded n bx by_) /\ weighing (histogram_part rounded n bx by_) /\ weighing (renormalised_part rounded n bx by_) /\
  weighing (reference_part rounded n bx by_) /\ weighing (subsampled_part rounded evals dither n bx by_) /\
  weighing (slice_part rounded n zs bx by_ bz) /\ weighing (volume_part rounded n bx by_ bz) /\
  weighing (limited_part rounded n ratio bx by_ bz) /\ weighing (deposit_part rounded n fold bx by_ bz).
Proof.
  intros n bx by_ bz ratio evals dither zs fold N Ra Di Fo. repeat match goal with |- _ /\ _ => split end; intros p H; unfold hsml in H.
  - apply (family_copies2 bx by_ (fun m => fast_at rounded n m (r_h p))). intros. apply fast_family; assumption.
  - apply (family_copies2 bx by_ (fun m => histogram_at rounded n m)). intros. apply histogram_family.
  - apply (family_copies2 bx by_ (fun m => renormalised_at rounded n m (r_h p))). intros. apply renormalised_family; assumption.
  - unfold reference_part. cbn [with_weight r_x r_y r_h r_m]. refine (family_flat _ _ _). intro sx. cbn beta. apply reference_family. exact H.
  - apply (family_copies2 bx by_ (fun m => subsampled_at rounded evals dither n m (r_h p))). intros. apply subsampled_family; assumption.
  - apply (family_copies3 (shifts rounded) bx by_ bz (fun m => slice_at rounded n zs m (r_h p))). intros. apply slice_family; assumption.
  - apply (family_copies3 (shifts rounded) bx by_ bz (fun m => voxel_at rounded n n m (r_h p))). intros. apply voxel_family; assumption.
  - apply (family_copies3 (shifts_limited rounded) bx by_ bz (fun m => voxel_at rounded (n / ratio) n m (r_h p))). intros.
    apply voxel_family; [assumption|apply Z.div_pos; lia|assumption].
  - unfold deposit_part. cbv zeta. cbn [with_weight r_x r_y r_z r_m]. apply (family_one _ (fun m => mul rounded m _)). apply mul_value.
    apply mul_nonneg; apply mul_nonneg; try (apply square_nonneg); [apply single_nonneg, of_int_nonneg, N|exact Fo].
Qed.

(** * A constant is not kept *)

Definition point (m : spec_float) : rpart ieee := @mk_rpart ieee (dbl 1 (-2)) (dbl 1 (-2)) (dbl 0 0) m (dbl 1 0).
(** Two particles with masses 1 and 2^-53, both of temperature 3: their map is above 3. *)
Theorem C136_constant_refuted : exists masses temperature products,
  products = map (fun m => mul ieee m temperature) masses /\
  let picture ms := draw ieee (double ieee) (flat_map (histogram_part ieee 1 (dbl 0 0) (dbl 0 0)) (map point ms)) [0; 0]%Z in
  SFltb temperature (div ieee (picture products) (picture masses)) = true.
Proof. exists [dbl 1 0; dbl 1 (-53)], (dbl 3 0), [dbl 3 0; dbl 3 (-53)]. split; vm_compute; reflexivity. Qed.

(** The hypotheses hold for a histogram of particles of masses 1 and 3 and temperatures 10 and 20; a million writes to a pixel
    of an image in single precision have an error below one fifth. *)
Example C136_case : forall c, let l := [(1, 10); (3, 20)] in
  let e := (1 + eps 53) ^ times c (flat_map (histogram_part rounded 4 0 0) (rows (fun _ => @mk_rpart rounded (/ 4) (/ 2) 0 0 1) fst l)) - 1 in
  quotient_bounds 10 20 e
    (draw rounded (double rounded) (flat_map (histogram_part rounded 4 0 0) (rows (fun _ => @mk_rpart rounded (/ 4) (/ 2) 0 0 1) fst l)) c)
    (draw rounded (double rounded) (flat_map (histogram_part rounded 4 0 0) (rows (fun _ => @mk_rpart rounded (/ 4) (/ 2) 0 0 1) (fun x => fst x * snd x) l)) c).
Proof.
  intros c l e. apply C136_quotient; [apply stored_double| |lra|lra| |].
  - apply (C136_backends 4 0 0 0 1 1 1 0 0); [lia|lia|lia|lra].
  - intros x _. unfold hsml. cbn [r_h]. lra.
  - intros x [<-|[<-|[]]]; cbn [fst snd]; lra.
Qed.
Example C136_million : (1 + (eps 24 + eps 53 + eps 24 * eps 53)) ^ Z.to_nat 1000000 - 1 <= / 5.
Proof.
  set (u := eps 24 + eps 53 + eps 24 * eps 53).
  assert (U : 0 <= u <= / 16000000).
  { unfold u, eps. change (bpow radix2 (- (24))) with (/ 16777216). change (bpow radix2 (- (53))) with (/ 9007199254740992). lra. }
  assert (N : INR (Z.to_nat 1000000) = 1000000) by (rewrite INR_IZR_INZ, Z2Nat.id by lia; reflexivity).
  eapply Rle_trans; [apply (C115_roundings u (Z.to_nat 1000000)); [lra|]|]; rewrite N; lra.
Qed.

Print Assumptions C136_quotient.
Print Assumptions C136_parallel.
Print Assumptions C136_bounds.
Print Assumptions C136_backends.
Print Assumptions C136_constant_refuted.
Print Assumptions C136_case.

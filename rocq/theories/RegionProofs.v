(** Proofs about constraints given as cosmo arrays. *)
From Coq Require Import List ZArith QArith Qabs Bool Reals Qreals Lra Lia.
From Verif Require Import Base BaseLemmas MaskModel CosmoModel CosmoSpec CosmoProofs CosmoExprProofs CtorModel
  CtorSpec CtorTheorems RegionModel RegionSpec.
Import ListNotations.
Open Scope R_scope.

(** * Numbers *)

Lemma qltb_R : forall c a b, 0 < c -> Rltb (c * Q2R a) (c * Q2R b) = qltb a b.
Proof.
  intros c a b C. rewrite Rltb_scale by exact C. unfold qltb.
  destruct (Qle_bool b a) eqn:E.
  - apply Qle_bool_iff, Qle_Rle in E. cbn. destruct (Rltb (Q2R a) (Q2R b)) eqn:F; [|reflexivity].
    apply Rltb_true in F. lra.
  - cbn. apply Rltb_true. apply Qlt_Rlt. apply Qnot_le_lt. intro H. apply Qle_bool_iff in H. congruence.
Qed.

Lemma qle_R : forall c a b, 0 < c -> Rleb (c * Q2R a) (c * Q2R b) = Qle_bool a b.
Proof.
  intros c a b C. rewrite Rleb_scale by exact C. destruct (Qle_bool a b) eqn:E.
  - apply Rleb_true, Qle_Rle, Qle_bool_iff. exact E.
  - apply Rleb_false, Qlt_Rlt, Qnot_le_lt. intro H. apply Qle_bool_iff in H. congruence.
Qed.

Lemma Q2R_abs : forall a, Q2R (Qabs a) = Rabs (Q2R a).
Proof.
  intro a. destruct (Qlt_le_dec a 0) as [H|H].
  - rewrite (Qeq_eqR _ _ (Qabs_neg a (Qlt_le_weak _ _ H))), Q2R_opp. apply Qlt_Rlt in H.
    rewrite RMicromega.Q2R_0 in H. rewrite Rabs_left by exact H. reflexivity.
  - rewrite (Qeq_eqR _ _ (Qabs_pos a H)). apply Qle_Rle in H. rewrite RMicromega.Q2R_0 in H.
    rewrite Rabs_right by lra. reflexivity.
Qed.

Lemma Q2R_two : Q2R 2 = 2. Proof. unfold Q2R. cbn. lra. Qed.
Lemma Q2R_three : Q2R 3 = 3. Proof. unfold Q2R. cbn. lra. Qed.
Lemma Q2R_inject : forall z, Q2R (inject_Z z) = IZR z.
Proof. intro z. unfold Q2R. cbn. field. Qed.
Lemma Q2R_half : forall a, Q2R (a / 2) = Q2R a / 2.
Proof. intro a. rewrite Q2R_div by discriminate. rewrite Q2R_two. reflexivity. Qed.

(** * Broadcasting against one number *)

Lemma bc_one : forall C (f : R -> R -> C) xs y, broadcast f xs [y] = Ok (map (fun x => f x y) xs).
Proof. intros C f [|x [|x' xs]] y; reflexivity. Qed.

Lemma gives_ok : forall s m r w, gives s m r (Ok w) -> exists x, r = Ok x /\ good s m x /\ phys x = w.
Proof. intros s m [x|e] w H; [|contradiction]. exists x. split; [reflexivity|exact H]. Qed.

(** * Arithmetic on arrays worth numbers *)

Section Worth.
Variables s k c : R.
Hypothesis C : 0 < c.

Lemma worth_shift : forall o f x xs y b, In o [Badd; Bsub] ->
  (forall a, bfun o (c * Q2R a) (c * Q2R b) = c * Q2R (f a)) ->
  worth s k c x xs -> worth s k c y [b] ->
  exists r, binop o (OArr x) (OArr y) = Ok r /\ worth s k c r (map f xs).
Proof.
  intros o f x xs y b Ho Hf (Gx & Px) (Gy & Py).
  assert (Hi : In o [Badd; Bsub; Bmax; Bmin]) by (cbn in *; tauto).
  pose proof (binop_same_gives s k o x y Hi Gx Gy) as G. rewrite Px, Py in G. cbn [map] in G.
  rewrite bc_one, map_map in G. apply gives_ok in G. destruct G as (r & E & Gr & Pr). exists r. split; [exact E|].
  split; [exact Gr|]. rewrite Pr, map_map. apply map_ext. exact Hf.
Qed.

Lemma worth_add : forall x xs y b, worth s k c x xs -> worth s k c y [b] ->
  exists r, binop Badd (OArr x) (OArr y) = Ok r /\ worth s k c r (map (fun a => a + b)%Q xs).
Proof.
  intros x xs y b X Y. apply (worth_shift Badd (fun a => a + b)%Q x xs y b); auto; [cbn; auto|].
  intro a. cbn [bfun]. rewrite Q2R_plus. ring.
Qed.

Lemma worth_sub : forall x xs y b, worth s k c x xs -> worth s k c y [b] ->
  exists r, binop Bsub (OArr x) (OArr y) = Ok r /\ worth s k c r (map (fun a => a - b)%Q xs).
Proof.
  intros x xs y b X Y. apply (worth_shift Bsub (fun a => a - b)%Q x xs y b); auto; [cbn; auto|].
  intro a. cbn [bfun]. rewrite Q2R_minus. ring.
Qed.

Lemma worth_half : forall x a, worth s k c x [a] ->
  exists r, binop Bdiv (OArr x) (OPlain [2]) = Ok r /\ worth s k c r [(a / 2)%Q].
Proof.
  intros x a (Gx & Px).
  pose proof (binop_num_r_gives s k Bdiv x [2] (or_intror (or_introl eq_refl)) Gx) as G. rewrite Px in G. cbn [map] in G.
  rewrite bc_one in G. apply gives_ok in G. destruct G as (r & E & Gr & Pr). exists r. split; [exact E|].
  split; [exact Gr|]. rewrite Pr. cbn [map bfun]. rewrite Q2R_half. f_equal. field.
Qed.

Lemma worth_times : forall x a z, worth s k c x [a] ->
  exists r, binop Bmul (OPlain [IZR z]) (OArr x) = Ok r /\ worth s k c r [(inject_Z z * a)%Q].
Proof.
  intros x a z (Gx & Px). pose proof (binop_num_l_gives s k x [IZR z] Gx) as G. rewrite Px in G. cbn [map] in G.
  rewrite bc_one in G. apply gives_ok in G. destruct G as (r & E & Gr & Pr). exists r. split; [exact E|].
  split; [exact Gr|]. rewrite Pr. cbn [map bfun]. rewrite Q2R_mult, Q2R_inject. f_equal. ring.
Qed.

Lemma worth_whole : forall x a, worth s k c x [a] ->
  exists r, binop Bmul (OPlain [0; 1]) (OArr x) = Ok r /\ worth s k c r [0%Q; a].
Proof.
  intros x a (Gx & Px). pose proof (binop_num_l_gives s k x [0; 1] Gx) as G. rewrite Px in G. cbn [map] in G.
  rewrite bc_one in G. apply gives_ok in G. destruct G as (r & E & Gr & Pr). exists r. split; [exact E|].
  split; [exact Gr|]. rewrite Pr. cbn [map bfun]. rewrite RMicromega.Q2R_0. f_equal; [ring|f_equal; ring].
Qed.

Lemma worth_neg : forall x a, worth s k c x [a] ->
  exists r, unop Uneg (OArr x) = Ok r /\ worth s k c r [(- a)%Q].
Proof.
  intros x a (Gx & Px). pose proof (unop_gives s k Uneg x Gx) as G. rewrite Px in G. cbn [map ufun udim] in G.
  apply gives_ok in G. destruct G as (r & E & Gr & Pr). exists r. split; [exact E|].
  split; [exact Gr|]. rewrite Pr. cbn [map]. rewrite Q2R_opp. f_equal. ring.
Qed.

Lemma worth_abs : forall x a, worth s k c x [a] ->
  exists r, unop Uabs (OArr x) = Ok r /\ worth s k c r [Qabs a].
Proof.
  intros x a (Gx & Px). pose proof (unop_gives s k Uabs x Gx) as G. rewrite Px in G. cbn [map ufun udim] in G.
  apply gives_ok in G. destruct G as (r & E & Gr & Pr). exists r. split; [exact E|].
  split; [exact Gr|]. rewrite Pr. cbn [map]. rewrite Q2R_abs, Rabs_mult, (Rabs_right c) by lra. reflexivity.
Qed.

Lemma worth_gt : forall x xs y b, worth s k c x xs -> worth s k c y [b] ->
  cmpop Cgt (OArr x) (OArr y) = Ok (map (fun a => qltb b a) xs).
Proof.
  intros x xs y b (Gx & Px) (Gy & Py). rewrite (cmpop_phys s k Cgt x y Gx Gy), Px, Py. cbn [map].
  rewrite bc_one, map_map. f_equal. apply map_ext. intro a. apply qltb_R, C.
Qed.

Lemma worth_lt : forall x xs y b, worth s k c x xs -> worth s k c y [b] ->
  cmpop Clt (OArr x) (OArr y) = Ok (map (fun a => qltb a b) xs).
Proof.
  intros x xs y b (Gx & Px) (Gy & Py). rewrite (cmpop_phys s k Clt x y Gx Gy), Px, Py. cbn [map].
  rewrite bc_one, map_map. f_equal. apply map_ext. intro a. apply qltb_R, C.
Qed.

Lemma worth_le : forall x xs y b, worth s k c x xs -> worth s k c y [b] ->
  cmpop Cle (OArr x) (OArr y) = Ok (map (fun a => Qle_bool a b) xs).
Proof.
  intros x xs y b (Gx & Px) (Gy & Py). rewrite (cmpop_phys s k Cle x y Gx Gy), Px, Py. cbn [map].
  rewrite bc_one, map_map. f_equal. apply map_ext. intro a. apply qle_R, C.
Qed.

Lemma worth_gt1 : forall x a y b, worth s k c x [a] -> worth s k c y [b] ->
  truth (cmpop Cgt (OArr x) (OArr y)) = Ok (qltb b a).
Proof. intros. erewrite worth_gt by eassumption. reflexivity. Qed.
Lemma worth_lt1 : forall x a y b, worth s k c x [a] -> worth s k c y [b] ->
  truth (cmpop Clt (OArr x) (OArr y)) = Ok (qltb a b).
Proof. intros. erewrite worth_lt by eassumption. reflexivity. Qed.

Lemma compress_map : forall A B (f : A -> B) m l, compress m (map f l) = map f (compress m l).
Proof.
  intros A B f. induction m as [|b m IH]; intros [|x l]; try reflexivity. cbn [map compress].
  destruct b; cbn [map]; rewrite IH; reflexivity.
Qed.

Lemma worth_mask : forall m x q, worth s k c x q -> worth s k c (take_mask m x) (compress m q).
Proof.
  intros m x q (G & P). split; [constructor; apply G|].
  rewrite <- compress_map, <- P. unfold take_mask, phys. cbn [acm acf avals].
  destruct (acm x) as [[|]|]; try reflexivity. destruct (acf x) as [[[e|] [t|]]|]; try reflexivity.
  symmetry. apply compress_map.
Qed.

Lemma worth_item : forall i x q v, worth s k c x q -> nth_error q i = Some v ->
  exists r, item x i = Ok r /\ worth s k c r [v].
Proof.
  intros i x q v (G & P) N.
  assert (M : nth_error (phys x) i = Some (c * Q2R v)) by (rewrite P; apply (map_nth_error (fun v => c * Q2R v)); exact N).
  unfold item. unfold phys in M. pose proof (g_cf _ _ _ G) as F. rewrite F in M.
  destruct (acm x) as [[|]|] eqn:A; [| |destruct (g_cm _ _ _ G A)].
  - destruct (nth_error (avals x) i) as [w|] eqn:W.
    + apply (map_nth_error (fun v => Rpower s k * v)) in W. rewrite W in M. injection M as M.
      eexists. split; [reflexivity|]. split; [constructor; cbn; [rewrite F; reflexivity|rewrite ?A; discriminate|apply G]|].
      unfold phys. cbn [acm acf avals map]. rewrite ?A, F. cbn [map]. rewrite M. reflexivity.
    + exfalso. apply nth_error_None in W. assert (H : (i < length (map (fun v => (Rpower s k * v)%R) (avals x)))%nat)
        by (apply nth_error_Some; rewrite M; discriminate). rewrite map_length in H. lia.
  - rewrite M. eexists. split; [reflexivity|]. split; [constructor; cbn; [rewrite F; reflexivity|rewrite ?A; discriminate|apply G]|].
    unfold phys. cbn [acm acf avals map]. rewrite ?A. reflexivity.
Qed.

Lemma worth_length : forall x q, worth s k c x q -> length (avals x) = length q.
Proof. intros x q (_ & P). rewrite <- phys_length, P. apply map_length. Qed.

(** * Constructors *)

Lemma array_of_cosmo : forall x q, worth s k c x q ->
  exists r, array_of (InCosmo (mku tt x)) = Ok r /\ worth s k c r q.
Proof.
  intros x q (G & P). unfold array_of.
  assert (E : exists r, new_array tt (fun _ _ => tt) (InCosmo (mku tt x)) kw0 = Ok r
              /\ good s k (u_arr r)).
  { unfold new_array, kw0. cbn [k_bypass]. unfold from_cosmo. cbn [u_arr k_sf k_se k_cm k_vt k_comp].
    rewrite (g_cf _ _ _ G). cbn [bind]. destruct (cf_eq (mkcf (Some k) (Some s)) null_cf) eqn:Q.
    { apply cf_eq_scale in Q. discriminate. }
    cbn [parse_cf bind acm]. pose proof (g_cm _ _ _ G) as M. destruct (acm x) as [b|] eqn:A; [|congruence].
    assert (V : verify (Some b) true = Ok tt) by (destruct b; reflexivity). rewrite V. cbn [bind].
    eexists. split; [reflexivity|]. constructor; cbn; [reflexivity|discriminate|reflexivity]. }
  destruct E as (r & E & Gr). rewrite E. cbn [bind]. exists (u_arr r). split; [reflexivity|].
  destruct (C86_cosmo_meaning unit tt (fun _ _ => tt) (mku tt x) s k kw0 r eq_refl G eq_refl eq_refl E) as (Q & _).
  cbn [u_arr] in Q. split; [exact Gr|]. rewrite Q. exact P.
Qed.

Lemma array_of_list : forall l qs, l <> [] -> Forall2 (worth s k c) l qs ->
  exists r, array_of (InList (map OArr l)) = Ok r /\ worth s k c r (concat qs).
Proof.
  intros l qs N F. unfold array_of.
  assert (G : all_good s k l).
  { intros x I. clear N. induction F as [|y q l qs W F IH]; [destruct I|]. destruct I as [->|I]; [apply W|auto]. }
  destruct (C86_list unit tt (fun _ _ => tt) s k l kw0 G N eq_refl eq_refl eq_refl eq_refl eq_refl (or_introl eq_refl))
    as (r & E & Gr & Pr).
  rewrite E. cbn [bind]. exists (u_arr r). split; [reflexivity|]. split; [exact Gr|]. rewrite Pr. clear - F.
  induction F as [|y q l qs W F IH]; [reflexivity|]. cbn [flat_map concat]. rewrite map_app, IH. f_equal. apply W.
Qed.

End Worth.

(** * The region *)

Section Region.
Variables s c : R.
Hypothesis C : 0 < c.

Lemma says_len : forall r q, says s c r q ->
  (match row_len r with Some n => Nat.eqb n 2 | None => true end)
  = match q with None => true | Some v => Nat.eqb (length v) 2 end.
Proof.
  intros r q H. destruct H as [|x q W|l q F]; cbn [row_len]; [reflexivity| |].
  - rewrite (worth_length _ _ _ _ _ W). reflexivity.
  - assert (E : length l = length q) by (induction F; cbn; congruence). rewrite E. reflexivity.
Qed.

Lemma concat_ones : forall A (q : list A), concat (map (fun v => [v]) q) = q.
Proof. intros A. induction q as [|v q IH]; [reflexivity|]. cbn. rewrite IH. reflexivity. Qed.

Lemma sane_row_worth : forall r q b bq, says s c r q -> worth s 1 c b [bq] ->
  (match q with None => true | Some v => Nat.eqb (length v) 2 end) = true ->
  exists x lo up, sane_row r b = Ok x /\ worth s 1 c x [lo; up] /\ sanitize_axis bq q = Some (lo, up).
Proof.
  intros r q b bq H B L. destruct H as [|x q W|l q F]; cbn [sane_row sanitize_axis].
  - destruct (worth_whole s 1 c b bq B) as (r & E & W). exists r, 0%Q, bq. auto.
  - destruct q as [|lo [|up [|]]]; try discriminate.
    destruct (array_of_cosmo s 1 c x _ W) as (r & E & W'). exists r, lo, up. auto.
  - destruct q as [|lo [|up [|]]]; try discriminate.
    assert (F2 : Forall2 (worth s 1 c) l (map (fun v => [v]) [lo; up])).
    { clear L. induction F; constructor; auto. }
    destruct (array_of_list s 1 c l (map (fun v => [v]) [lo; up])) as (r & E & W).
    + destruct l; [inversion F|discriminate].
    + exact F2.
    + rewrite concat_ones in W. exists r, lo, up. auto.
Qed.

Lemma sanitize_axis_len : forall b q,
  (match q with None => true | Some v => Nat.eqb (length v) 2 end) = false -> sanitize_axis b q = None.
Proof. intros b [[|x [|y [|z t]]]|] H; try discriminate; reflexivity. Qed.

Lemma l_sanitize_worth : forall lm mm region qregion, portrays s c lm mm -> Forall2 (says s c) region qregion ->
  match sanitize_region (mm_box mm) qregion with
  | Err e => l_sanitize lm region = Err e
  | Ok f => exists x, l_sanitize lm region = Ok x
      /\ worth s 1 c x [fst (f AX); snd (f AX); fst (f AY); snd (f AY); fst (f AZ); snd (f AZ)]
  end.
Proof.
  intros lm mm region qregion (B & _) F.
  destruct F as [|r1 q1 region qregion H1 F]; [reflexivity|].
  destruct F as [|r2 q2 region qregion H2 F]; [reflexivity|].
  destruct F as [|r3 q3 region qregion H3 F]; [reflexivity|].
  destruct F as [|r4 q4 region qregion H4 F]; [|reflexivity].
  cbn [sanitize_region l_sanitize forallb].
  rewrite (says_len _ _ H1), (says_len _ _ H2), (says_len _ _ H3).
  destruct (match q1 with None => true | Some v => Nat.eqb (length v) 2 end) eqn:L1;
    [|rewrite (sanitize_axis_len _ _ L1); reflexivity].
  destruct (sane_row_worth _ _ _ _ H1 (B AX) L1) as (x1 & l1 & u1 & E1 & W1 & S1). rewrite S1.
  destruct (match q2 with None => true | Some v => Nat.eqb (length v) 2 end) eqn:L2;
    [|rewrite (sanitize_axis_len _ _ L2); reflexivity].
  destruct (sane_row_worth _ _ _ _ H2 (B AY) L2) as (x2 & l2 & u2 & E2 & W2 & S2). rewrite S2.
  destruct (match q3 with None => true | Some v => Nat.eqb (length v) 2 end) eqn:L3;
    [|rewrite (sanitize_axis_len _ _ L3); reflexivity].
  destruct (sane_row_worth _ _ _ _ H3 (B AZ) L3) as (x3 & l3 & u3 & E3 & W3 & S3). rewrite S3.
  cbn [andb fst snd]. rewrite E1, E2, E3. cbn [bind].
  apply (array_of_list s 1 c [x1; x2; x3] [[l1; u1]; [l2; u2]; [l3; u3]]); [discriminate|].
  constructor; [assumption|constructor; [assumption|constructor; [assumption|constructor]]].
Qed.

(** * Cell masks *)

Lemma l_out_worth : forall box lo up b l u, worth s 1 c box [b] -> worth s 1 c lo [l] -> worth s 1 c up [u] ->
  l_out box lo up = Ok (out_of_window b l u).
Proof.
  intros box lo up b l u B L U. unfold l_out.
  destruct (worth_neg s 1 c box b B) as (r1 & E1 & W1). rewrite E1. cbn [bind].
  destruct (worth_half s 1 c r1 _ W1) as (r2 & E2 & W2). rewrite E2. cbn [bind].
  destruct (worth_times s 1 c box b 3 B) as (r3 & E3 & W3). rewrite E3. cbn [bind].
  destruct (worth_half s 1 c r3 _ W3) as (r4 & E4 & W4). rewrite E4. cbn [bind].
  rewrite (worth_lt1 s 1 c C _ _ _ _ L W2), (worth_lt1 s 1 c C _ _ _ _ U W2),
    (worth_gt1 s 1 c C _ _ _ _ L W4), (worth_gt1 s 1 c C _ _ _ _ U W4). cbn [bind]. reflexivity.
Qed.

Lemma l_interval_worth : forall box lo up b l u, worth s 1 c box [b] -> worth s 1 c lo [l] -> worth s 1 c up [u] ->
  match axis_interval b l u with
  | None => l_interval box lo up = Ok None
  | Some (l', u') => exists lo' up', l_interval box lo up = Ok (Some (lo', up'))
      /\ worth s 1 c lo' [l'] /\ worth s 1 c up' [u']
  end.
Proof.
  intros box lo up b l u B L U. unfold l_interval, axis_interval.
  destruct (worth_sub s 1 c up [u] lo l U L) as (r1 & E1 & W1). rewrite E1. cbn [bind map] in *.
  destruct (worth_abs s 1 c C r1 _ W1) as (r2 & E2 & W2). rewrite E2. cbn [bind].
  rewrite (worth_gt1 s 1 c C _ _ _ _ W2 B). cbn [bind].
  destruct (qltb b (Qabs (u - l))); [reflexivity|].
  rewrite (worth_lt1 s 1 c C _ _ _ _ U L). cbn [bind].
  destruct (qltb u l); [|exists lo, up; auto].
  destruct (worth_half s 1 c box _ B) as (r3 & E3 & W3). rewrite E3. cbn [bind].
  rewrite (worth_gt1 s 1 c C _ _ _ _ L W3). cbn [bind].
  destruct (qltb (b / 2) l).
  - destruct (worth_sub s 1 c lo [l] box b L B) as (r4 & E4 & W4). rewrite E4. cbn [bind map] in *. exists r4, up. auto.
  - rewrite (worth_lt1 s 1 c C _ _ _ _ U W3). cbn [bind]. destruct (qltb u (b / 2)); [|exists lo, up; auto].
    destruct (worth_add s 1 c up [u] box b U B) as (r4 & E4 & W4). rewrite E4. cbn [bind map] in *. exists lo, r4. auto.
Qed.

Lemma combine_maps : forall A B D E (h : B -> D -> E) (f : A -> B) (g : A -> D) l,
  map (fun ab => h (fst ab) (snd ab)) (combine (map f l) (map g l)) = map (fun x => h (f x) (g x)) l.
Proof. intros A B D E h f g. induction l as [|x l IH]; [reflexivity|]. cbn. rewrite IH. reflexivity. Qed.

Lemma zip3_maps : forall A B D E F (h : B -> D -> E -> F) (f : A -> B) (g : A -> D) (e : A -> E) l,
  zip3 h (map f l) (map g l) (map e l) = map (fun x => h (f x) (g x) (e x)) l.
Proof. intros A B D E F h f g e. induction l as [|x l IH]; [reflexivity|]. unfold zip3 in *. cbn. rewrite IH. reflexivity. Qed.

Lemma l_copy_worth : forall box lo up mn mx b l u (cells : list cell) a z,
  worth s 1 c box [b] -> worth s 1 c lo [l] -> worth s 1 c up [u] ->
  worth s 1 c mn (map (fun x => cell_min x a) cells) -> worth s 1 c mx (map (fun x => cell_max x a) cells) ->
  l_copy box lo up mn mx z
  = Ok (map (fun x => qltb l (cell_max x a + inject_Z z * b)%Q && qltb (cell_min x a + inject_Z z * b)%Q u) cells).
Proof.
  intros box lo up mn mx b l u cells a z B L U N X. unfold l_copy.
  destruct (worth_times s 1 c box b z B) as (r1 & E1 & W1). rewrite E1. cbn [bind].
  destruct (worth_add s 1 c mx _ r1 _ X W1) as (r2 & E2 & W2). rewrite E2. cbn [bind].
  rewrite (worth_gt s 1 c C _ _ _ _ W2 L). cbn [bind].
  destruct (worth_add s 1 c mn _ r1 _ N W1) as (r3 & E3 & W3). rewrite E3. cbn [bind].
  rewrite (worth_lt s 1 c C _ _ _ _ W3 U). cbn [bind]. f_equal. rewrite !map_map. apply combine_maps.
Qed.

Lemma l_this_worth : forall box lo up b l u lk k a m,
  worth s 1 c box [b] -> worth s 1 c lo [l] -> worth s 1 c up [u] -> corners s c lk k ->
  l_this box lo up a lk m
  = Ok (masked_assign m m (map (fun x => axis_selects b l u (cell_min x a) (cell_max x a)) (compress m (key_cells k)))).
Proof.
  intros box lo up b l u lk k a m B L U K. unfold l_this. destruct (K a) as (N & X).
  apply (worth_mask s 1 c m) in N. apply (worth_mask s 1 c m) in X. rewrite compress_map in N, X.
  rewrite !(l_copy_worth box lo up _ _ b l u _ a) by eassumption. cbn [bind]. rewrite zip3_maps.
  do 2 f_equal. apply map_ext. intro x. unfold axis_selects. cbn [existsb]. rewrite orb_false_r, orb_assoc. reflexivity.
Qed.

Lemma l_this_all : forall box lo up b l u lks ks a,
  worth s 1 c box [b] -> worth s 1 c lo [l] -> worth s 1 c up [u] -> Forall2 (corners s c) lks ks ->
  forall g, all_ok (map (fun km => l_this box lo up a (fst km) (snd km)) (combine lks (map g ks)))
  = Ok (map (fun k => masked_assign (g k) (g k)
                        (map (fun x => axis_selects b l u (cell_min x a) (cell_max x a)) (compress (g k) (key_cells k)))) ks).
Proof.
  intros box lo up b l u lks ks a B L U F g. induction F as [|lk k lks ks K F IH]; [reflexivity|].
  cbn [map combine fst snd all_ok]. rewrite (l_this_worth box lo up b l u lk k a (g k) B L U K). cbn [bind].
  rewrite IH. reflexivity.
Qed.

Lemma l_axes_worth : forall lm mm restrict f, portrays s c lm mm ->
  worth s 1 c restrict [fst (f AX); snd (f AX); fst (f AY); snd (f AY); fst (f AZ); snd (f AZ)] ->
  forall todo g,
  (forall a i, In (a, i) todo -> (a, i) = (AX, 0%nat) \/ (a, i) = (AY, 1%nat) \/ (a, i) = (AZ, 2%nat)) ->
  l_axes lm restrict todo (map g (mm_keys mm))
  = if existsb (fun a => out_of_window (mm_box mm a) (fst (f a)) (snd (f a))) (map fst todo) then Err ValueError
    else Ok (map (fun k => fold_left (cell_mask_axis (mm_box mm) f (key_cells k)) (map fst todo) (g k)) (mm_keys mm)).
Proof.
  intros lm mm restrict f (B & K) W. induction todo as [|(a, i) todo IH]; intros g H; [reflexivity|].
  cbn [l_axes map existsb fst fold_left].
  assert (N : nth_error [fst (f AX); snd (f AX); fst (f AY); snd (f AY); fst (f AZ); snd (f AZ)] (2 * i) = Some (fst (f a))
           /\ nth_error [fst (f AX); snd (f AX); fst (f AY); snd (f AY); fst (f AZ); snd (f AZ)] (2 * i + 1) = Some (snd (f a))).
  { destruct (H a i (or_introl eq_refl)) as [Q|[Q|Q]]; injection Q as -> ->; split; reflexivity. }
  destruct N as (N1 & N2).
  destruct (worth_item s 1 c _ _ _ _ W N1) as (lo & E1 & W1). destruct (worth_item s 1 c _ _ _ _ W N2) as (up & E2 & W2).
  rewrite E1. cbn [bind]. rewrite E2. cbn [bind].
  rewrite (l_out_worth _ _ _ _ _ _ (B a) W1 W2). cbn [bind].
  destruct (out_of_window (mm_box mm a) (fst (f a)) (snd (f a))); [reflexivity|]. cbn [orb].
  assert (H' : forall a0 i0, In (a0, i0) todo -> (a0, i0) = (AX, 0%nat) \/ (a0, i0) = (AY, 1%nat) \/ (a0, i0) = (AZ, 2%nat))
    by (intros; apply H; right; assumption).
  pose proof (l_interval_worth _ _ _ _ _ _ (B a) W1 W2) as V. unfold cell_mask_axis at 2.
  destruct (axis_interval (mm_box mm a) (fst (f a)) (snd (f a))) as [(l' & u')|].
  - destruct V as (lo' & up' & EV & VL & VU). rewrite EV. cbn [bind].
    rewrite (l_this_all _ _ _ _ _ _ _ _ a (B a) VL VU K g). cbn [bind]. apply IH, H'.
  - rewrite V. cbn [bind]. apply IH, H'.
Qed.

Lemma full_worth : forall lm mm, portrays s c lm mm ->
  map (fun k => repeat true (length (avals (lk_min k AX)))) (lm_keys lm)
  = map (fun k => map (fun _ => true) (key_cells k)) (mm_keys mm).
Proof.
  intros lm mm (_ & F). induction F as [|lk k lks ks K F IH]; [reflexivity|]. cbn [map]. rewrite IH. f_equal.
  destruct (K AX) as (N & _). rewrite (worth_length _ _ _ _ _ N), map_length. clear.
  induction (key_cells k) as [|x l IH]; [reflexivity|]. cbn. rewrite IH. reflexivity.
Qed.

Lemma l_generate_worth : forall lm mm restrict f, portrays s c lm mm ->
  worth s 1 c restrict [fst (f AX); snd (f AX); fst (f AY); snd (f AY); fst (f AZ); snd (f AZ)] ->
  l_generate lm restrict = generate_cell_mask mm f.
Proof.
  intros lm mm restrict f P W. unfold l_generate, generate_cell_mask. rewrite (full_worth lm mm P).
  rewrite (l_axes_worth lm mm restrict f P W); [reflexivity|].
  intros a i I. cbn in I. intuition congruence.
Qed.

Lemma l_constrain_spatial_worth : forall lm mm region qregion union st,
  portrays s c lm mm -> Forall2 (says s c) region qregion ->
  l_constrain_spatial mm lm region union st = constrain_spatial mm qregion union st.
Proof.
  intros lm mm region qregion union st P F. unfold l_constrain_spatial, constrain_spatial.
  pose proof (l_sanitize_worth lm mm region qregion P F) as S.
  destruct (sanitize_region (mm_box mm) qregion) as [f|e]; [|rewrite S; reflexivity].
  destruct S as (x & -> & W). rewrite (l_generate_worth lm mm x f P W). reflexivity.
Qed.

(** * Properties *)

Lemma l_constrain_property_worth : forall k mm key vals qs cm lower upper lo up st, 
  worth s k c (mkarr vals (Some (mkcf (Some k) (Some s))) (Some cm) true CNone) qs ->
  worth s k c lower [lo] -> worth s k c upper [up] ->
  l_constrain_property mm key (Some vals) (mkcf (Some k) (Some s)) cm lower upper st
  = constrain_property mm key (Some qs) lo up st.
Proof.
  intros k mm key vals qs cm lower upper lo up st W L U. unfold l_constrain_property, constrain_property.
  destruct (convert_masks_to_bool mm (ms_masks st)) as [l|l]; [reflexivity|].
  destruct (nth_error l key) as [(current, size)|]; [|reflexivity].
  unfold new_array. cbn [k_bypass]. unfold from_numbers. cbn [k_cf k_sf k_se parse_cf bind k_cm k_vt k_units or_unit or_null k_comp].
  assert (V : verify (Some cm) true = Ok tt) by (destruct cm; reflexivity). rewrite V. cbn [bind u_arr].
  apply (worth_mask s k c current) in W. unfold take_mask in W. cbn [acf acm avt acomp avals] in W.
  rewrite (worth_gt s k c C _ _ _ _ W L), (worth_le s k c C _ _ _ _ W U). cbn [bind].
  rewrite (combine_maps Q bool bool bool andb). reflexivity.
Qed.
End Region.

(** * What is refused *)

Lemma array_of_good : forall s k x, good s k x ->
  exists r, array_of (InCosmo (mku tt x)) = Ok r /\ good s k r /\ avals r = avals x.
Proof.
  intros s k x G. unfold array_of, new_array, kw0. cbn [k_bypass]. unfold from_cosmo.
  cbn [u_arr k_sf k_se k_cm k_vt k_comp]. rewrite (g_cf _ _ _ G). cbn [bind].
  destruct (cf_eq (mkcf (Some k) (Some s)) null_cf) eqn:Q; [apply cf_eq_scale in Q; discriminate|].
  cbn [parse_cf bind acm]. pose proof (g_cm _ _ _ G) as M. destruct (acm x) as [b|] eqn:A; [|congruence].
  assert (V : verify (Some b) true = Ok tt) by (destruct b; reflexivity). rewrite V. cbn [bind u_arr].
  eexists. split; [reflexivity|]. split; [constructor; cbn; [reflexivity|discriminate|reflexivity]|reflexivity].
Qed.

Lemma phys_pos_length : forall s k l, all_good s k l ->
  length (flat_map phys l) = length (flat_map avals l).
Proof.
  intros s k l. induction l as [|x l IH]; intro G; [reflexivity|]. cbn [flat_map]. rewrite !app_length, phys_length.
  rewrite IH; [reflexivity|]. intros y I. apply G. right. exact I.
Qed.

Lemma prepare_declared : forall d l, l <> [] -> (forall x, In x l -> exists s k, good s k x) ->
  exists l' b co, prepare d (map OArr l) = Ok (mkprep l' (map acf l) (Some b) true co).
Proof.
  intros d l N G. unfold prepare.
  assert (Cm : map snd (filter fst (map op_cm (map OArr l))) = map acm l).
  { clear. induction l as [|x l IH]; [reflexivity|]. cbn. rewrite IH. reflexivity. }
  assert (Cf : map op_cf (map OArr l) = map acf l) by (rewrite map_map; reflexivity).
  assert (Vt : forallb op_vt (map OArr l) = true).
  { apply forallb_forall. intros o I. apply in_map_iff in I. destruct I as (x & <- & I). destruct (G x I) as (s & k & H). apply H. }
  assert (Nn : existsb is_none (map acm l) = false).
  { destruct (existsb is_none (map acm l)) eqn:E; [|reflexivity]. apply existsb_exists in E. destruct E as (m & I & E).
    apply in_map_iff in I. destruct I as (x & <- & I). destruct (G x I) as (s & k & H). destruct (acm x) eqn:A; [discriminate|].
    destruct (g_cm _ _ _ H A). }
  assert (Nf : forallb is_none (map acm l) = false).
  { destruct l as [|x l]; [congruence|]. cbn [map forallb existsb] in *. apply orb_false_iff in Nn. destruct Nn as (-> & _). reflexivity. }
  rewrite Cm, Cf, Vt. destruct (map acm l) as [|m ms] eqn:M; [destruct l; [congruence|discriminate]|].
  destruct (forallb is_true (m :: ms)); [eexists; eexists; eexists; reflexivity|].
  rewrite Nf, Nn. destruct (forallb is_false (m :: ms)); [eexists; eexists; eexists; reflexivity|].
  assert (A : forall f, (forall x, In x l -> exists y, f x = Ok y) -> exists l', all_ok (map (coerce f) (map OArr l)) = Ok l').
  { intros f. clear. induction l as [|x l IH]; intro H; [exists []; reflexivity|]. destruct IH as (l' & E); [intros y I; apply H; right; exact I|].
    destruct (H x (or_introl eq_refl)) as (y & Y). cbn [map coerce all_ok]. rewrite Y. cbn [bind].
    destruct (is_true (acm x)); cbn [all_ok bind]; rewrite E; cbn [bind]; eexists; reflexivity. }
  destruct (d && _).
  - destruct (A to_comoving) as (l' & E).
    { intros x I. destruct (G x I) as (s & k & H). rewrite (to_c_good s k x H). eexists. reflexivity. }
    rewrite E. cbn [bind]. eexists. eexists. eexists. reflexivity.
  - destruct (A to_physical) as (l' & E).
    { intros x I. destruct (G x I) as (s & k & H). rewrite (to_p_good s k x H). eexists. reflexivity. }
    rewrite E. cbn [bind]. eexists. eexists. eexists. reflexivity.
Qed.

Lemma unlike_eq : forall s j t k, unlike s j t k ->
  cf_eq (mkcf (Some j) (Some s)) (mkcf (Some k) (Some t)) = false
  /\ cf_eq (mkcf (Some k) (Some t)) (mkcf (Some j) (Some s)) = false.
Proof.
  intros s j t k N. split.
  - destruct (cf_eq _ _) eqn:E; [|reflexivity]. pose proof (cf_eq_scale _ _ E) as S. cbn in S. injection S as S. subst t.
    apply cf_eq_close in E. destruct N as [N|(N & _)]; [congruence|contradiction].
  - destruct (cf_eq _ _) eqn:E; [|reflexivity]. pose proof (cf_eq_scale _ _ E) as S. cbn in S. injection S as S. subst t.
    apply cf_eq_close in E. destruct N as [N|(_ & N)]; [congruence|contradiction].
Qed.

Lemma stranger_row : forall t j r b, stranger t j r ->
  exists x, sane_row r b = Ok x /\ good t j x /\ length (avals x) = 2%nat.
Proof.
  intros t j r b [x G L|l G L O]; cbn [sane_row].
  - destruct (array_of_good t j x G) as (r' & E & Gr & Ar). exists r'. rewrite Ar. auto.
  - assert (N : l <> []) by (destruct l; discriminate). unfold array_of.
    destruct (C86_list unit tt (fun _ _ => tt) t j l kw0 G N eq_refl eq_refl eq_refl eq_refl eq_refl (or_introl eq_refl))
      as (r' & E & Gr & Pr).
    rewrite E. cbn [bind]. exists (u_arr r'). split; [reflexivity|]. split; [exact Gr|].
    rewrite <- phys_length, Pr, (phys_pos_length t j l G).
    destruct l as [|x [|y [|]]]; try discriminate. cbn [flat_map]. rewrite !app_length.
    rewrite (O x), (O y) by (cbn; auto). reflexivity.
Qed.

Lemma stranger_len : forall t j r, stranger t j r -> row_len r = Some 2%nat.
Proof. intros t j r [x G L|l G L O]; cbn [row_len]; rewrite L; reflexivity. Qed.

Lemma array_of_mixed : forall x y z, (forall w, In w [x; y; z] -> exists s k, good s k w) ->
  h_preserve [acf x; acf y; acf z] = Err ValueError ->
  array_of (InList [OArr x; OArr y; OArr z]) = Err ValueError.
Proof.
  intros x y z G H. unfold array_of, new_array, kw0. cbn [k_bypass]. unfold from_list. cbn [k_cm].
  destruct (prepare_declared true [x; y; z] ltac:(discriminate) G) as (l' & b & co & P). cbn [map] in P. rewrite P.
  cbn [bind p_cm p_cfs p_args p_comp k_cf k_sf k_se parse_cf or_cm]. rewrite H. reflexivity.
Qed.

Lemma item_good : forall s k x i, good s k x -> (i < length (avals x))%nat ->
  exists r, item x i = Ok r /\ good s k r.
Proof.
  intros s k x i G L. unfold item. destruct (nth_error (avals x) i) eqn:E; [|apply nth_error_None in E; lia].
  eexists. split; [reflexivity|]. constructor; apply G.
Qed.

Lemma l_out_reject : forall s t j box lo up, good s 1 box -> good t j lo -> unlike s 1 t j -> 
  l_out box lo up = Err ValueError.
Proof.
  intros s t j box lo up B L N. unfold l_out.
  pose proof (unop_gives s 1 Uneg box B) as G. apply gives_ok in G. destruct G as (r1 & E1 & G1 & _). rewrite E1. cbn [bind udim] in *.
  pose proof (binop_num_r_gives s 1 Bdiv r1 [2] (or_intror (or_introl eq_refl)) G1) as G. rewrite bc_one in G.
  apply gives_ok in G. destruct G as (r2 & E2 & G2 & _). rewrite E2. cbn [bind].
  pose proof (binop_num_l_gives s 1 box [3] B) as G.
  assert (X : exists v, broadcast (bfun Bmul) [3] (phys box) = Ok v).
  { destruct (phys box) as [|a [|b t']]; eexists; reflexivity. }
  destruct X as (v & X). rewrite X in G. apply gives_ok in G. destruct G as (r3 & E3 & G3 & _). rewrite E3. cbn [bind].
  pose proof (binop_num_r_gives s 1 Bdiv r3 [2] (or_intror (or_introl eq_refl)) G3) as G. rewrite bc_one in G.
  apply gives_ok in G. destruct G as (r4 & E4 & G4 & _). rewrite E4. cbn [bind].
  assert (N' : t <> s \/ ~ close_factors t j 1).
  { destruct N as [N|(_ & N)]; [left; congruence|]. destruct (Req_dec t s) as [->|]; [right; exact N|left; assumption]. }
  rewrite (cmp_reject t s j 1 Clt lo r2 L G2 N'). reflexivity.
Qed.

Lemma l_spatial_refused : forall s t j mm lm region union st,
  (forall a, good s 1 (lm_box lm a) /\ length (avals (lm_box lm a)) = 1%nat) -> unlike s 1 t j ->
  length region = 3%nat -> (forall r, In r region -> r = RowNone \/ stranger t j r) ->
  (exists r, In r region /\ r <> RowNone) -> (ms_constrained st = None \/ (ms_constrained st = Some CSpatial /\ union = true)) ->
  l_constrain_spatial mm lm region union st = (st, Some ValueError).
Proof.
  intros s t j mm lm region union st B N L R P S. unfold l_constrain_spatial.
  destruct region as [|rx [|ry [|rz [|]]]]; try discriminate. cbn [l_sanitize].
  assert (Rx := R rx (or_introl eq_refl)). assert (Ry := R ry (or_intror (or_introl eq_refl))).
  assert (Rz := R rz (or_intror (or_intror (or_introl eq_refl)))).
  assert (F : forallb (fun r => match row_len r with Some n => Nat.eqb n 2 | None => true end) [rx; ry; rz] = true).
  { apply forallb_forall. intros r I. destruct (R r I) as [->|H]; [reflexivity|]. rewrite (stranger_len t j r H). reflexivity. }
  rewrite F.
  assert (Nn : forall a, exists x, sane_row RowNone (lm_box lm a) = Ok x /\ good s 1 x).
  { intro a. destruct (B a) as (G & La). cbn [sane_row]. pose proof (binop_num_l_gives s 1 (lm_box lm a) [0; 1] G) as H.
    rewrite <- phys_length in La. destruct (phys (lm_box lm a)) as [|v [|]]; try discriminate. rewrite bc_one in H.
    apply gives_ok in H. destruct H as (x & E & Gx & _). exists x. auto. }
  assert (V : forall r a, r = RowNone \/ stranger t j r -> exists x, sane_row r (lm_box lm a) = Ok x
          /\ ((r = RowNone /\ good s 1 x) \/ (r <> RowNone /\ good t j x /\ length (avals x) = 2%nat))).
  { intros r a [->|H].
    - destruct (Nn a) as (x & E & G). exists x. auto.
    - destruct (stranger_row t j r (lm_box lm a) H) as (x & E & G & Lx). exists x. split; [exact E|]. right. split; [|auto].
      intro Q. rewrite Q in H. inversion H. }
  destruct (V rx AX Rx) as (x & Ex & Gx). destruct (V ry AY Ry) as (y & Ey & Gy). destruct (V rz AZ Rz) as (z & Ez & Gz).
  rewrite Ex, Ey, Ez. cbn [bind].
  destruct (unlike_eq s 1 t j N) as (U1 & U2).
  assert (U3 : cf_eq (mkcf (Some 1) (Some s)) (mkcf (Some 1) (Some s)) = true) by apply cf_eq_refl.
  assert (U4 : cf_eq (mkcf (Some j) (Some t)) (mkcf (Some j) (Some t)) = true) by apply cf_eq_refl.
  destruct (array_of (InList [OArr x; OArr y; OArr z])) as [r|e] eqn:A.
  - assert (All : good t j x /\ good t j y /\ good t j z /\ length (avals x) = 2%nat /\ length (avals y) = 2%nat /\ length (avals z) = 2%nat).
    { destruct Gx as [(Qx & Gx)|(Qx & Gx & Lx)]; destruct Gy as [(Qy & Gy)|(Qy & Gy & Ly)]; destruct Gz as [(Qz & Gz)|(Qz & Gz & Lz)];
      try (exfalso; rewrite array_of_mixed in A; [discriminate|intros w I; cbn in I; destruct I as [<-|[<-|[<-|[]]]]; eexists; eexists; eassumption|];
           unfold h_preserve, reduce; cbn [reduce_from];
           rewrite (g_cf _ _ _ Gx), (g_cf _ _ _ Gy), (g_cf _ _ _ Gz); cbn [h_preserve2];
           rewrite ?U1, ?U2, ?U3, ?U4; cbn [negb bind h_preserve2 reduce_from]; rewrite ?U1, ?U2, ?U3, ?U4; reflexivity).
      - exfalso. subst. destruct P as (r' & I & Q). cbn in I. destruct I as [<-|[<-|[<-|[]]]]; congruence.
      - repeat split; try assumption; (apply Gx || apply Gy || apply Gz). }
    destruct All as (G1 & G2 & G3 & L1 & L2 & L3).
    assert (Gr : good t j r /\ length (avals r) = 6%nat).
    { unfold array_of in A.
      assert (Gl : all_good t j [x; y; z]) by (intros w I; cbn in I; destruct I as [<-|[<-|[<-|[]]]]; assumption).
      destruct (C86_list unit tt (fun _ _ => tt) t j [x; y; z] kw0 Gl ltac:(discriminate) eq_refl eq_refl eq_refl eq_refl eq_refl (or_introl eq_refl))
        as (r' & E & Gr & Pr).
      cbn [map] in E. rewrite E in A. cbn [bind] in A. injection A as <-. split; [exact Gr|].
      rewrite <- phys_length, Pr, (phys_pos_length t j _ Gl). cbn [flat_map]. rewrite !app_length, L1, L2, L3. reflexivity. }
    destruct Gr as (Gr & Lr).
    assert (Q : l_generate lm r = Err ValueError).
    { unfold l_generate. cbn [l_axes]. 
      destruct (item_good t j r (2 * 0) Gr ltac:(rewrite Lr; lia)) as (lo & E1 & Gl). rewrite E1. cbn [bind].
      destruct (item_good t j r (2 * 0 + 1) Gr ltac:(rewrite Lr; lia)) as (up & E2 & Gu). rewrite E2. cbn [bind].
      rewrite (l_out_reject s t j _ lo up (proj1 (B AX)) Gl N). reflexivity. }
    rewrite Q. destruct S as [S|(S & ->)]; rewrite S; [|reflexivity]. reflexivity.
  - assert (e = ValueError); [|subst; reflexivity].
    destruct Gx as [(Qx & Gx)|(Qx & Gx & Lx)]; destruct Gy as [(Qy & Gy)|(Qy & Gy & Ly)]; destruct Gz as [(Qz & Gz)|(Qz & Gz & Lz)];
      try (rewrite array_of_mixed in A; [congruence|intros w I; cbn in I; destruct I as [<-|[<-|[<-|[]]]]; eexists; eexists; eassumption|];
           unfold h_preserve, reduce; cbn [reduce_from];
           rewrite (g_cf _ _ _ Gx), (g_cf _ _ _ Gy), (g_cf _ _ _ Gz); cbn [h_preserve2];
           rewrite ?U1, ?U2, ?U3, ?U4; cbn [negb bind h_preserve2 reduce_from]; rewrite ?U1, ?U2, ?U3, ?U4; reflexivity).
    + exfalso. subst. destruct P as (r' & I & Q). cbn in I. destruct I as [<-|[<-|[<-|[]]]]; congruence.
    + exfalso. unfold array_of in A.
      assert (Gl : all_good t j [x; y; z]) by (intros w I; cbn in I; destruct I as [<-|[<-|[<-|[]]]]; assumption).
      destruct (C86_list unit tt (fun _ _ => tt) t j [x; y; z] kw0 Gl ltac:(discriminate) eq_refl eq_refl eq_refl eq_refl eq_refl (or_introl eq_refl))
        as (r' & E & _). cbn [map] in E. rewrite E in A. discriminate.
Qed.

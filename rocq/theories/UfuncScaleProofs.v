(** Which elementary functions scale, and reductions. *)
From Coq Require Import String List ZArith Bool Reals Lra Lia.
From Verif Require Import Base BaseLemmas CosmoModel CosmoSpec CosmoExactSpec CosmoProofs CosmoTheorems CosmoExactTheorems FuncModel FuncSpec FuncProofs UfuncModel UfuncSpec UfuncProofs UfuncSoundProofs.
Import ListNotations.
Open Scope R_scope.
Local Open Scope string_scope.

Lemma map_scale : forall (g : R -> R) c d v, (forall x, g (c * x) = d * g x) -> map g (scale c v) = scale d (map g v).
Proof. intros g c d v H. unfold scale. rewrite !map_map. apply map_ext; exact H. Qed.
Lemma bc_scale : forall (g : R -> R -> R) c d e v w, (forall x y, g (c * x) (d * y) = e * g x y) ->
  broadcast g (scale c v) (scale d w) = match broadcast g v w with Ok r => Ok (scale e r) | Err a => Err a end.
Proof. intros g c d e v w H. unfold scale. rewrite (broadcast_map R R g g _ _ (fun z => e * z) _ _ H). destruct (broadcast g v w); reflexivity. Qed.

Lemma scales_each1 : forall g k e, (forall t x, 0 < t -> g (Rpower t k * x) = Rpower t e * g x) -> scales (each1 g) [k] [] e.
Proof.
  intros g k e H t avs kvs Ht La Lk. destruct avs as [|v [|w l]]; try discriminate La. cbn [wscale each1 mscale map].
  rewrite (map_scale g _ (Rpower t e)); [reflexivity|]. intro x. apply H; exact Ht.
Qed.
Lemma scales_each2 : forall g j k e, (forall t x y, 0 < t -> g (Rpower t j * x) (Rpower t k * y) = Rpower t e * g x y) ->
  scales (each2 g) [j; k] [] e.
Proof.
  intros g j k e H t avs kvs Ht La Lk. destruct avs as [|v [|w [|z l]]]; try discriminate La. cbn [wscale each2 mscale map].
  rewrite (bc_scale g _ _ (Rpower t e)) by (intros x y; apply H; exact Ht).
  destruct (broadcast g v w); reflexivity.
Qed.

Definition com (s k v : R) : carr := mkarr [v] (lcf s k) (Some true) true CNone.
Lemma com_good : forall s k v, good s k (com s k v).
Proof. intros; constructor; cbn; (reflexivity || discriminate). Qed.
Lemma com_phys : forall s k v, phys (com s k v) = [Rpower s k * v].
Proof. reflexivity. Qed.

Lemma Rpower_e : forall c, 0 < c -> Rpower (exp 1) (ln c) = c.
Proof. intros c H. unfold Rpower. rewrite ln_exp, Rmult_1_r. apply exp_ln; exact H. Qed.

(** One comoving number. *)
Lemma one_result : forall u g s k v, entry u = Ok HPassthrough \/ entry u = Ok HPreserve ->
  snd (array_ufunc (each1 g) u MCall [UArr (com s k v)] [] None)
  = Ok (mkures [OArr (mkarr [g v] (lcf s k) (Some true) true (CPair true CNone))] []).
Proof. intros u g s k v [E|E]; unfold array_ufunc, label_for, drops; cbv zeta; rewrite E; reflexivity. Qed.
Lemma two_result : forall u g s j k v w c, label_for u MCall [lcf s j; lcf s k] [UArr (com s j v); UArr (com s k w)] = Ok (c, []) -> drops u = false ->
  snd (array_ufunc (each2 g) u MCall [UArr (com s j v); UArr (com s k w)] [] None)
  = Ok (mkures [OArr (mkarr [g v w] c (Some true) true (CPair true CNone))] []).
Proof.
  intros u g s j k v w c H D. unfold array_ufunc. cbv zeta. rewrite D.
  change (prepare_kw true (map uop_of [UArr (com s j v); UArr (com s k w)]) ([] ++ []))
    with (Ok (mkprepk [OArr (com s j v); OArr (com s k w)] [] [lcf s j; lcf s k] [] (Some true) true (CPair true CNone) false)).
  cbn [bind k_cfs]. rewrite H. reflexivity.
Qed.

Lemma right_one_iff : forall u g, In u ["add"; "subtract"; "remainder"; "fmod"; "hypot"; "fmax"; "fmin";
      "nextafter"; "heaviside"; "_ones_like"; "negative"; "absolute"; "fabs"; "conjugate"; "positive";
      "maximum"; "minimum"; "copysign"; "modf"; "divmod"; "floor"; "ceil"; "trunc"; "spacing"; "clip"] ->
  (right_one u g <-> forall c v, 0 < c -> g (c * v) = c * g v).
Proof.
  intros u g I. split.
  - intros H c v Hc. specialize (H c 1 (com c 1 v) Hc (com_good c 1 v)).
    rewrite one_result in H by (destruct (entry_same u I) as ([E|E] & _); auto).
    rewrite com_phys in H. cbn [all_right r_values map] in H. inversion H as [|o w l l' Hr _]; subst. destruct Hr as [_ Hr].
    unfold phys in Hr. cbn [acm acf avals lcf map] in Hr. rewrite Rpower_1 in Hr by exact Hc.
    injection Hr as Hr. symmetry. exact Hr.
  - intros H s k x Hs G.
    apply (ufunc_right s (each1 g) u MCall [UArr x] [] None [k] [] k [] Hs).
    + constructor; [apply sz_arr; exact G|constructor].
    + constructor.
    + exists x. left; reflexivity.
    + apply (lawful_label u MCall [k] k s [UArr x]); [apply lc_same1; exact I|]. cbn [map label_in]. rewrite (g_cf _ _ _ G). reflexivity.
    + apply (lawful_drops u MCall [k] k). apply lc_same1; exact I.
    + apply scales_each1. intros t y Ht. apply H. apply Rpower_pos.
Qed.

Lemma two_iff : forall u g (P : R -> R -> Prop) (e : R -> R -> R),
  (forall j k, P j k -> lawful_call u MCall [j; k] (e j k)) ->
  (forall s j k x y, 0 < s -> P j k -> good s j x -> good s k y ->
     all_right s (e j k) (snd (array_ufunc (each2 g) u MCall [UArr x; UArr y] [] None)) (each2 g [phys x; phys y] []))
  <-> (forall s j k v w, 0 < s -> P j k -> g (Rpower s j * v) (Rpower s k * w) = Rpower s (e j k) * g v w).
Proof.
  intros u g P e L. split.
  - intros H s j k v w Hs Hp. specialize (H s j k (com s j v) (com s k w) Hs Hp (com_good s j v) (com_good s k w)).
    rewrite (two_result u g s j k v w (lcf s (e j k))) in H.
    + cbn [all_right r_values] in H. rewrite !com_phys in H. cbn in H.
      inversion H as [|o r l l' Hr _]; subst. destruct Hr as [_ Hr].
      unfold phys in Hr. cbn [acm acf avals lcf map] in Hr. injection Hr as Hr. symmetry; exact Hr.
    + apply (lawful_label u MCall [j; k] (e j k) s [UArr (com s j v); UArr (com s k w)] (L j k Hp) eq_refl).
    + apply (lawful_drops u MCall [j; k] (e j k) (L j k Hp)).
  - intros H s j k x y Hs Hp Gx Gy.
    apply (ufunc_right s (each2 g) u MCall [UArr x; UArr y] [] None [j; k] [] (e j k) [] Hs).
    + constructor; [apply sz_arr; exact Gx|constructor; [apply sz_arr; exact Gy|constructor]].
    + constructor.
    + exists x. left; reflexivity.
    + apply (lawful_label u MCall [j; k] (e j k) s [UArr x; UArr y] (L j k Hp)). cbn [map label_in].
      rewrite (g_cf _ _ _ Gx), (g_cf _ _ _ Gy). reflexivity.
    + apply (lawful_drops u MCall [j; k] (e j k) (L j k Hp)).
    + apply scales_each2. intros t a b Ht. apply H; assumption.
Qed.

Lemma right_alike_iff : forall u g, In u ["add"; "subtract"; "remainder"; "fmod"; "hypot"; "fmax"; "fmin";
      "nextafter"; "heaviside"; "maximum"; "minimum"; "copysign"; "divmod"] ->
  (right_alike u g <-> forall c v w, 0 < c -> g (c * v) (c * w) = c * g v w).
Proof.
  intros u g I. pose proof (two_iff u g (fun j k => j = k) (fun j _ => j)) as T. cbv beta in T.
  destruct T as [T1 T2]. { intros j k <-. apply lc_same2; exact I. }
  split.
  - intros H c v w Hc.
    assert (Q : g (Rpower c 1 * v) (Rpower c 1 * w) = Rpower c 1 * g v w).
    { apply T1; [|exact Hc|reflexivity]. intros s j k x y Hs <- Gx Gy. apply H; assumption. }
    rewrite Rpower_1 in Q by exact Hc. exact Q.
  - intros H s k x y Hs Gx Gy. apply (T2 (fun s j k v w _ E => eq_ind j (fun k => g (Rpower s j * v) (Rpower s k * w) = Rpower s j * g v w) (H (Rpower s j) v w (Rpower_pos s j)) k E) s k k x y Hs eq_refl Gx Gy).
Qed.
Lemma right_product_iff : forall u g, In u ["multiply"; "matmul"; "vecdot"] ->
  (right_product u g <-> forall c d v w, 0 < c -> 0 < d -> g (c * v) (d * w) = c * d * g v w).
Proof.
  intros u g I. pose proof (two_iff u g (fun _ _ => True) (fun j k => j + k)) as T. cbv beta in T.
  destruct T as [T1 T2]. { intros j k _. apply lc_product; exact I. }
  split.
  - intros H c d v w Hc Hd.
    assert (Q : g (Rpower (exp 1) (ln c) * v) (Rpower (exp 1) (ln d) * w) = Rpower (exp 1) (ln c + ln d) * g v w).
    { apply T1; [|apply exp_pos|exact Logic.I]. intros s j k x y Hs _ Gx Gy. apply H; assumption. }
    rewrite Rpower_plus, !Rpower_e in Q by assumption. exact Q.
  - intros H s j k x y Hs Gx Gy. apply T2; [|exact Hs|exact Logic.I|exact Gx|exact Gy].
    intros s' j' k' v w Hs' _. rewrite Rpower_plus. apply H; apply Rpower_pos.
Qed.
Lemma right_quotient_iff : forall u g, In u ["divide"; "floor_divide"] ->
  (right_quotient u g <-> forall c d v w, 0 < c -> 0 < d -> g (c * v) (d * w) = c / d * g v w).
Proof.
  intros u g I. pose proof (two_iff u g (fun _ _ => True) (fun j k => j - k)) as T. cbv beta in T.
  destruct T as [T1 T2]. { intros j k _. apply lc_quotient; exact I. }
  assert (D : forall s j k, Rpower s (j - k) = Rpower s j / Rpower s k).
  { intros s j k. unfold Rminus. rewrite Rpower_plus, Rpower_Ropp. reflexivity. }
  split.
  - intros H c d v w Hc Hd.
    assert (Q : g (Rpower (exp 1) (ln c) * v) (Rpower (exp 1) (ln d) * w) = Rpower (exp 1) (ln c - ln d) * g v w).
    { apply T1; [|apply exp_pos|exact Logic.I]. intros s j k x y Hs _ Gx Gy. apply H; assumption. }
    rewrite D, !Rpower_e in Q by assumption. exact Q.
  - intros H s j k x y Hs Gx Gy. apply T2; [|exact Hs|exact Logic.I|exact Gx|exact Gy].
    intros s' j' k' v w Hs' _. rewrite D. apply H; apply Rpower_pos.
Qed.

(** Plain results. *)
Lemma plain_result : forall u g s k x, In u (names_of HWithout) -> good s k x ->
  snd (array_ufunc (each1 g) u MCall [UArr x] [] None) = Ok (mkures [OPlain (map g (avals x))] []).
Proof.
  intros u g s k x I G. assert (E : entry u = Ok HWithout) by (apply entry_sound; exact I).
  assert (C : Forall conv (arrs ([OArr x] ++ []))) by (constructor; [exists s, k; exact G|constructor]).
  destruct (prepare_conv [OArr x] [] C) as (args' & kw' & P & Na & Nk & Q).
  assert (M : mixed ([OArr x] ++ []) = false).
  { unfold mixed. cbn. destruct (acm x) as [[|]|]; reflexivity. }
  destruct (Q M) as [-> ->].
  unfold array_ufunc, label_for, drops. cbv zeta. rewrite E.
  change (map uop_of [UArr x]) with [OArr x]. cbn [app]. cbn [app] in P. rewrite P. reflexivity.
Qed.
Lemma right_plain_iff : forall u g, In u (names_of HWithout) ->
  (right_plain u g <-> forall c v, 0 < c -> g (c * v) = g v).
Proof.
  intros u g I. split.
  - intros H c v Hc. specialize (H c 1 (com c 1 v) Hc (com_good c 1 v)).
    rewrite (plain_result u g c 1 _ I (com_good c 1 v)), com_phys in H. cbn [com avals map] in H.
    rewrite Rpower_1 in H by exact Hc. injection H as H. symmetry; exact H.
  - intros H s k x Hs G. rewrite (plain_result u g s k x I G). do 2 f_equal. f_equal. f_equal.
    destruct x as [v c cm vt cp]. pose proof (g_cf _ _ _ G) as F. cbn in F. subst c.
    unfold phys. cbn [acm acf avals]. destruct cm as [[|]|]; [|reflexivity|reflexivity].
    rewrite map_map. apply map_ext. intro y. symmetry. apply H. apply Rpower_pos.
Qed.

(** * Elementary functions *)
Lemma floor_unique : forall x z, IZR z <= x -> x < IZR z + 1 -> n_floor x = IZR z.
Proof.
  intros x z H1 H2. unfold n_floor, Int_part. f_equal.
  rewrite <- (tech_up x (z + 1)) by (rewrite plus_IZR; lra). lia.
Qed.
Lemma not_floor : ~ forall c v, 0 < c -> n_floor (c * v) = c * n_floor v.
Proof.
  intro H. specialize (H 2 (1 / 2) ltac:(lra)).
  rewrite (floor_unique (2 * (1 / 2)) 1), (floor_unique (1 / 2) 0) in H by (try (apply eq_IZR_R0); lra). lra.
Qed.
Lemma not_ceil : ~ forall c v, 0 < c -> n_ceil (c * v) = c * n_ceil v.
Proof.
  intro H. specialize (H 2 (1 / 2) ltac:(lra)). unfold n_ceil in H.
  rewrite (floor_unique (- (2 * (1 / 2))) (-1)), (floor_unique (- (1 / 2)) (-1)) in H by lra. lra.
Qed.
Lemma trunc_half : n_trunc (1 / 2) = 0.
Proof. unfold n_trunc. destruct (Rlt_dec (1 / 2) 0); [lra|]. apply (floor_unique (1 / 2) 0); lra. Qed.
Lemma trunc_one : n_trunc (2 * (1 / 2)) = 1.
Proof. unfold n_trunc. destruct (Rlt_dec (2 * (1 / 2)) 0); [lra|]. apply (floor_unique _ 1); lra. Qed.
Lemma not_trunc : ~ forall c v, 0 < c -> n_trunc (c * v) = c * n_trunc v.
Proof. intro H. specialize (H 2 (1 / 2) ltac:(lra)). rewrite trunc_half, trunc_one in H. lra. Qed.
Lemma not_frac : ~ forall c v, 0 < c -> n_frac (c * v) = c * n_frac v.
Proof.
  intro H. specialize (H 2 (1 / 2) ltac:(lra)). unfold n_frac in H. rewrite trunc_half, trunc_one in H. lra.
Qed.
Lemma not_heaviside : ~ forall c v w, 0 < c -> n_heaviside (c * v) (c * w) = c * n_heaviside v w.
Proof.
  intro H. specialize (H 2 1 1 ltac:(lra)). unfold n_heaviside in H.
  destruct (Rlt_dec (2 * 1) 0); [lra|]. destruct (Rlt_dec 0 (2 * 1)); [|lra].
  destruct (Rlt_dec 1 0); [lra|]. destruct (Rlt_dec 0 1); lra.
Qed.
Lemma not_ones : ~ forall c v : R, 0 < c -> (fun _ : R => 1) (c * v) = c * (fun _ => 1) v.
Proof. intro H. specialize (H 2 1 ltac:(lra)). cbv beta in H. lra. Qed.
Lemma not_floordiv_alike : ~ forall c v w, 0 < c -> n_floordiv (c * v) (c * w) = c * n_floordiv v w.
Proof.
  intro H. specialize (H 2 1 1 ltac:(lra)). unfold n_floordiv in H.
  destruct (Req_EM_T (2 * 1) 0); [lra|]. destruct (Req_EM_T 1 0); [lra|].
  rewrite (floor_unique (2 * 1 / (2 * 1)) 1), (floor_unique (1 / 1) 1) in H by (try split; lra). lra.
Qed.
Lemma not_floordiv : ~ forall c d v w, 0 < c -> 0 < d -> n_floordiv (c * v) (d * w) = c / d * n_floordiv v w.
Proof.
  intro H. specialize (H 1 2 1 1 ltac:(lra) ltac:(lra)). unfold n_floordiv in H.
  destruct (Req_EM_T (2 * 1) 0); [lra|]. destruct (Req_EM_T 1 0); [lra|].
  rewrite (floor_unique (1 * 1 / (2 * 1)) 0), (floor_unique (1 / 1) 1) in H by (try split; lra). lra.
Qed.
Lemma not_exp : ~ forall c v, 0 < c -> exp (c * v) = exp v.
Proof. intro H. specialize (H 2 1 ltac:(lra)). apply exp_inv in H. lra. Qed.
Lemma not_ln : ~ forall c v, 0 < c -> ln (c * v) = ln v.
Proof. intro H. specialize (H 2 1 ltac:(lra)). apply ln_inv in H; lra. Qed.
Lemma not_rint : ~ forall c v, 0 < c -> n_floor (c * v + 1 / 2) = n_floor (v + 1 / 2).
Proof.
  intro H. specialize (H 2 1 ltac:(lra)).
  rewrite (floor_unique (2 * 1 + 1 / 2) 2), (floor_unique (1 + 1 / 2) 1) in H by lra. lra.
Qed.

Lemma ratio : forall c v w, 0 < c -> w <> 0 -> c * v / (c * w) = v / w.
Proof. intros c v w Hc Hw. field. split; lra. Qed.
Lemma floordiv_common : forall c v w, 0 < c -> n_floordiv (c * v) (c * w) = n_floordiv v w.
Proof.
  intros c v w Hc. unfold n_floordiv.
  destruct (Req_EM_T w 0) as [->|N]; destruct (Req_EM_T (c * _) 0) as [E|E]; try reflexivity.
  - exfalso; apply E; ring.
  - exfalso. apply Rmult_integral in E. lra.
  - rewrite ratio by assumption. reflexivity.
Qed.
Lemma remainder_scale : forall c v w, 0 < c -> n_remainder (c * v) (c * w) = c * n_remainder v w.
Proof. intros c v w Hc. unfold n_remainder. rewrite floordiv_common by exact Hc. ring. Qed.
Lemma fmod_scale : forall c v w, 0 < c -> n_fmod (c * v) (c * w) = c * n_fmod v w.
Proof.
  intros c v w Hc. unfold n_fmod.
  destruct (Req_EM_T w 0) as [->|N]; destruct (Req_EM_T (c * _) 0) as [E|E]; try reflexivity.
  - exfalso; apply E; ring.
  - exfalso. apply Rmult_integral in E. lra.
  - rewrite ratio by assumption. ring.
Qed.
Lemma hypot_scale : forall c v w, 0 < c -> n_hypot (c * v) (c * w) = c * n_hypot v w.
Proof.
  intros c v w Hc. unfold n_hypot.
  replace (c * v * (c * v) + c * w * (c * w)) with (c * c * (v * v + w * w)) by ring.
  rewrite sqrt_mult_alt by nra. rewrite sqrt_square by lra. reflexivity.
Qed.
Lemma neg_scale : forall c y, 0 < c -> (c * y < 0 <-> y < 0).
Proof. intros c y Hc. split; intro H; nra. Qed.
Lemma copysign_scale : forall c v w, 0 < c -> n_copysign (c * v) (c * w) = c * n_copysign v w.
Proof.
  intros c v w Hc. unfold n_copysign. pose proof (neg_scale c w Hc) as N.
  assert (A : Rabs (c * v) = c * Rabs v) by (rewrite Rabs_mult, (Rabs_right c) by lra; reflexivity).
  destruct (Rlt_dec (c * w) 0); destruct (Rlt_dec w 0); rewrite ?A; try ring; exfalso; tauto.
Qed.
Lemma sign_scale : forall c v, 0 < c -> n_sign (c * v) = n_sign v.
Proof.
  intros c v Hc. unfold n_sign. pose proof (neg_scale c v Hc) as N.
  assert (M : 0 < c * v <-> 0 < v) by (split; intro H; nra).
  destruct (Rlt_dec (c * v) 0); destruct (Rlt_dec v 0); try reflexivity; try (exfalso; tauto).
  destruct (Rlt_dec 0 (c * v)); destruct (Rlt_dec 0 v); try reflexivity; exfalso; tauto.
Qed.

(** * Reductions along columns *)
Lemma column_scale : forall c w v j, column w (scale c v) j = scale c (column w v j).
Proof.
  intros c w v j. unfold column, scale. rewrite map_length.
  generalize (seq 0 (length v / w)). intro l. induction l as [|i l IH]; [reflexivity|]. cbn [flat_map map].
  rewrite map_app, IH. f_equal. rewrite nth_error_map. destruct (nth_error v (i * w + j)); reflexivity.
Qed.
Lemma column_length : forall h w v j, length v = (h * w)%nat -> (j < w)%nat -> length (column w v j) = h.
Proof.
  intros h w v j L J. unfold column. rewrite L, Nat.div_mul by lia.
  assert (G : forall n i, (i + n <= h)%nat -> length (flat_map (fun i => match nth_error v (i * w + j) with Some x => [x] | None => [] end) (seq i n)) = n).
  { induction n as [|n IH]; intros i B; [reflexivity|]. cbn [seq flat_map]. rewrite app_length, IH by lia.
    destruct (nth_error v (i * w + j)) eqn:E; [reflexivity|]. apply nth_error_None in E. nia. }
  apply G. lia.
Qed.
Lemma prod_pow : forall c l, fold_right Rmult 1 (scale c l) = c ^ length l * fold_right Rmult 1 l.
Proof. intros c l. unfold scale. induction l as [|x l IH]; cbn [map fold_right length pow]; [ring|]. rewrite IH. ring. Qed.
Lemma quot_pow : forall c t x, 0 < c -> fold_left Rdiv (scale c t) (c * x) = c * / c ^ length t * fold_left Rdiv t x.
Proof.
  intros c t x Hc. assert (G : forall t d y, fold_left Rdiv (scale c t) (d * y) = d * / c ^ length t * fold_left Rdiv t y).
  { induction t0 as [|a t0 IH]; intros d y; cbn [scale map fold_left length pow].
    - field.
    - unfold scale in IH. replace (d * y / (c * a)) with (d / c * (y / a)).
      + rewrite IH. pose proof (pow_lt c (length t0) Hc). field. split; lra.
      + unfold Rdiv. rewrite Rinv_mult. ring. }
  apply G.
Qed.

Lemma scales_product : forall h w k, scales (down_of product_down h w) [k] [] (k * INR h).
Proof.
  intros h w k t avs kvs Ht La Lk. destruct avs as [|v [|z l]]; try discriminate La. cbn [wscale down_of].
  unfold scale at 1. rewrite map_length. destruct (Nat.eqb (length v) (h * w)) eqn:E; [|reflexivity].
  apply Nat.eqb_eq in E. cbn [mscale map]. do 2 f_equal. unfold product_down, scale at 2. rewrite map_map.
  apply map_ext_in. intros j J. apply in_seq in J. rewrite column_scale, prod_pow.
  rewrite (column_length h w v j E) by lia. rewrite <- Rpower_mult, Rpower_pow by apply Rpower_pos. reflexivity.
Qed.
Lemma scales_quotient : forall h w k, (1 <= h)%nat -> scales (down_of quotient_down h w) [k] [] (k * (2 - INR h)).
Proof.
  intros h w k Hh t avs kvs Ht La Lk. destruct avs as [|v [|z l]]; try discriminate La. cbn [wscale down_of].
  unfold scale at 1. rewrite map_length. destruct (Nat.eqb (length v) (h * w)) eqn:E; [|reflexivity].
  apply Nat.eqb_eq in E. cbn [mscale map]. do 2 f_equal. unfold quotient_down, scale at 2. rewrite map_map.
  apply map_ext_in. intros j J. apply in_seq in J. rewrite column_scale.
  pose proof (column_length h w v j E ltac:(lia)) as L. unfold quotient_list.
  destruct (column w v j) as [|x c]; [cbn in L; lia|]. cbn [length] in L. cbn [scale map].
  fold (scale (Rpower t k) c). rewrite quot_pow by apply Rpower_pos. f_equal.
  rewrite <- Rpower_mult. set (a := Rpower t k). assert (Ha : 0 < a) by apply Rpower_pos.
  replace (2 - INR h) with (1 + - INR (length c)) by (rewrite <- L, S_INR; ring).
  rewrite Rpower_plus, Rpower_1, Rpower_Ropp, Rpower_pow by exact Ha. reflexivity.
Qed.

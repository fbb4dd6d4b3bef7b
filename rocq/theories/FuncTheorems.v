(** Theorems about the wrapped numpy functions (C64-C69). *)
From Coq Require Import String List ZArith Bool Reals Lra Lia.
From Verif Require Import Base CosmoModel CosmoSpec CosmoProofs FuncModel FuncSpec FuncProofs FuncMoreProofs FuncHistProofs.
Import ListNotations.
Open Scope R_scope.

Definition lab (s k : R) : option cf := Some (mkcf (Some k) (Some s)).
(** Comoving and physical arrays at scale factor [s] with exponent [k]. *)
Definition cmv (s k : R) (v : list R) : carr := mkarr v (lab s k) (Some true) true CNone.
Definition phy (s k : R) (v : list R) : carr := mkarr v (lab s k) (Some false) true CNone.
Lemma good_cmv : forall s k v, good s k (cmv s k v).
Proof. intros. constructor; cbn; (reflexivity || discriminate). Qed.
Lemma good_phy : forall s k v, good s k (phy s k v).
Proof. intros. constructor; cbn; (reflexivity || discriminate). Qed.
Lemma sized_good : forall s k x, good s k x -> sized s (OArr x) k.
Proof. intros. constructor. assumption. Qed.
Lemma rp21 : Rpower 2 1 = 2.
Proof. apply Rpower_1. lra. Qed.

Lemma cf_of : forall s k x, good s k x -> op_cf (OArr x) = lcf s k.
Proof. intros s k x G. exact (g_cf _ _ _ G). Qed.
Ltac szs := repeat (constructor; try (apply sized_good; eassumption)).
Lemma rep0 : forall k, [k] = k :: repeat 0 0. Proof. reflexivity. Qed.

(** * C64 *)

(** A wrapped function whose label rule is right, applied to arrays in any mixture of
    coordinates and to plain numbers, gives an array that stands for the function of
    the physical values, and carries the right exponent.  ([exceptional] lists the
    functions of C65; the rule must find a label at all.) *)
Theorem C64_functions : forall s n f args kw aks kks e, 0 < s ->
  Forall2 (sized s) args aks -> Forall2 (sized s) kw kks ->
  pattern (kind_of n) aks kks e -> exceptional n = false ->
  rule_of n (map op_cf args) (map op_cf kw) <> Ok None ->
  homogeneous f aks kks e ->
  stands s e (npcall n f args kw) (f (map op_phys args) (map op_phys kw)).
Proof. exact npcall_stands. Qed.

Lemma nolabel : forall s k (r : res (option cf)), r = Ok (lcf s k) -> r <> Ok None.
Proof. intros s k r -> E. discriminate E. Qed.

Theorem C64_products : forall s j k x y, 0 < s -> good s j x -> good s k y ->
  stands s (j + k) (npcall Ndot v_dot [OArr x; OArr y] []) (v_dot [phys x; phys y] [])
  /\ stands s (j + k) (npcall Nouter v_outer [OArr x; OArr y] []) (v_outer [phys x; phys y] [])
  /\ stands s (j + k) (npcall Ncross v_cross [OArr x; OArr y] []) (v_cross [phys x; phys y] [])
  /\ stands s (j + k) (npcall Nconvolve v_convolve [OArr x; OArr y] []) (v_convolve [phys x; phys y] [])
  /\ stands s (k - j) (npcall Nsolve v_solve2 [OArr x; OArr y] []) (v_solve2 [phys x; phys y] []).
Proof.
  intros s j k x y S X Y.
  assert (A : Forall2 (sized s) [OArr x; OArr y] [j; k]) by szs.
  assert (R : forall d, two d [op_cf (OArr x); op_cf (OArr y)] [] = d (lcf s j) (lcf s k))
    by (intro; cbn [two]; rewrite (cf_of _ _ _ X), (cf_of _ _ _ Y); reflexivity).
  repeat split;
    match goal with |- stands _ _ (npcall ?n ?f _ _) _ =>
      apply (npcall_stands s n f [OArr x; OArr y] [] [j; k] [] _ S A (Forall2_nil _)) end;
    try (exists j, k, O, O; repeat split; fail); try reflexivity;
    try (apply hom_dot); try (apply hom_outer); try (apply hom_cross); try (apply hom_convolve); try (apply hom_solve2);
    cbn [map]; unfold rule_of; rewrite R, ?h_mul_ok, ?h_div_ok; discriminate.
Qed.

Theorem C64_one_array : forall s k x, 0 < s -> good s k x ->
  stands s k (npcall Nnorm v_norm [OArr x] []) (v_norm [phys x] [])
  /\ stands s k (npcall Ndiff v_diff [OArr x] []) (v_diff [phys x] [])
  /\ stands s (- k) (npcall Ninv v_inv2 [OArr x] []) (v_inv2 [phys x] []).
Proof.
  intros s k x S X. assert (A : Forall2 (sized s) [OArr x] [k]) by szs.
  repeat split;
    match goal with |- stands _ _ (npcall ?n ?f _ _) _ =>
      apply (npcall_stands s n f [OArr x] [] [k] [] _ S A (Forall2_nil _)) end;
    try (exists k, O, O; repeat split; fail); try reflexivity;
    try (apply hom_norm); try (apply hom_diff); try (apply hom_inv2);
    cbn [map]; unfold rule_of, first; rewrite (cf_of _ _ _ X); unfold h_reciprocal; rewrite ?keep_ok, ?h_power_ok; discriminate.
Qed.

(** [linspace], [where], [clip], [insert] need equal labels (next theorem); [trapezoid]
    multiplies, [interp] takes the exponent of the ordinates. *)
Theorem C64_several_arrays : forall s j k x y z, 0 < s -> good s j x -> good s k y -> good s k z ->
  (forall n, stands s k (npcall Nlinspace (v_linspace n) [OArr y; OArr z] []) (v_linspace n [phys y; phys z] []))
  /\ (forall c o, sized s o 0 ->
      stands s k (npcall Nwhere (v_where c) [o; OArr y; OArr z] []) (v_where c [op_phys o; phys y; phys z] []))
  /\ (forall i, stands s k (npcall Ninsert (v_insert i) [OArr y; OPlain []; OArr z] [])
                           (v_insert i [phys y; []; phys z] []))
  /\ stands s (j + k) (npcall Ntrapezoid_x v_trapezoid [OArr x] [OArr y]) (v_trapezoid [phys x] [phys y])
  /\ stands s j (npcall Ninterp v_interp [OArr y; OArr z; OArr x] []) (v_interp [phys y; phys z; phys x] [])
  /\ (forall w, good s k w ->
      stands s k (np_clip v_clip (OArr y) (OArr z) (OArr w) None None) (v_clip [phys y] [phys z; phys w])).
Proof.
  intros s j k x y z S X Y Z. repeat split.
  - intro n. apply (npcall_stands s Nlinspace _ [OArr y; OArr z] [] [k; k] [] k S);
      [szs|constructor|exists k, O, O; repeat split|reflexivity| |apply hom_linspace].
    cbn [map rule_of two]. rewrite (cf_of _ _ _ Y), (cf_of _ _ _ Z), h_preserve2_same. discriminate.
  - intros c o O0. apply (npcall_stands s Nwhere _ [o; OArr y; OArr z] [] [0; k; k] [] k S);
      [constructor; [exact O0|szs]|constructor|exists k; repeat split|reflexivity| |apply hom_where].
    cbn [map rule_of]. rewrite (cf_of _ _ _ Y), (cf_of _ _ _ Z), h_preserve2_same. discriminate.
  - intro i. apply (npcall_stands s Ninsert _ [OArr y; OPlain []; OArr z] [] [k; 0; k] [] k S);
      [szs|constructor|exists k, O, O; repeat split|reflexivity| |apply hom_insert].
    cbn [map rule_of]. rewrite (cf_of _ _ _ Y), (cf_of _ _ _ Z), h_preserve2_same. discriminate.
  - apply (npcall_stands s Ntrapezoid_x _ [OArr x] [OArr y] [j] [k] (j + k) S);
      [szs|szs|exists j, k, O, O; repeat split|reflexivity| |apply hom_trapezoid].
    cbn [map rule_of kwfirst]. rewrite (cf_of _ _ _ X), (cf_of _ _ _ Y), h_mul_ok. discriminate.
  - apply (npcall_stands s Ninterp _ [OArr y; OArr z; OArr x] [] [k; k; j] [] j S);
      [szs|constructor|exists k, j, O, O; repeat split|reflexivity| |apply hom_interp].
    cbn [map rule_of]. rewrite (cf_of _ _ _ X), keep_ok. discriminate.
  - intros w W. apply (npcall_stands s Nclip _ [OArr y] [OArr z; OArr w] [k] [k; k] k S);
      [szs|szs|exists k, O, O; repeat split|reflexivity| |apply hom_clip].
    cbn [map rule_of]. rewrite (cf_of _ _ _ Y), (cf_of _ _ _ Z), (cf_of _ _ _ W).
    change [lcf s k; lcf s k; lcf s k] with (repeat (lcf s k) 3). rewrite h_preserve_all. discriminate.
Qed.

(** Functions whose two arrays must scale alike refuse labels whose factors differ. *)
Theorem C64_unequal_labels_rejected : forall s j k x y f n, good s j x -> good s k y ->
  isclose (Rpower s j) (Rpower s k) = false -> kind_of n = KSame ->
  npcall n f [OArr x; OArr y] [] = Err ValueError.
Proof.
  intros s j k x y f n X Y NE K. unfold npcall, call.
  destruct (prep_ok s [OArr x; OArr y] [] [j; k] []) as (p & P); [szs|constructor|].
  assert (C : Forall conv (arrs ([OArr x; OArr y] ++ []))) by (eapply conv2; eassumption).
  destruct (prepare_conv [OArr x; OArr y] [] C) as (a & w & -> & _). cbn [bind k_cfs k_kwcfs map].
  rewrite (cf_of _ _ _ X), (cf_of _ _ _ Y).
  assert (R : h_preserve2 (lcf s j) (lcf s k) = Err ValueError).
  { unfold h_preserve2, lcf, cf_eq, a_factor. cbn [cexpr cscale]. rewrite NE, andb_false_r. reflexivity. }
  destruct n; try discriminate K; cbn [rule_of two]; rewrite R; reflexivity.
Qed.

(** If a function returns a tuple, no member has any cosmology attributes, although they
    may be lengths in comoving coordinates ([svd], [eig] are unpacked by unyt). *)
Theorem C64_tuples_unlabelled : forall f h args kw r,
  call_tuple f h args kw = Ok r -> Forall (fun o => exists v, o = OPlain v) r.
Proof.
  intros f h args kw r. unfold call_tuple. destruct (prepare_kw true args kw) as [p|]; [cbn [bind]|discriminate].
  destruct (h _ _) as [c|]; [cbn [bind]|discriminate]. destruct (f _ _) as [vs|]; [cbn [bind]|discriminate].
  intro E. injection E as <-. apply Forall_forall. intros o H. apply in_map_iff in H.
  destruct H as (v & <- & _). eexists. reflexivity.
Qed.

(** A comoving and a physical vector. *)
Example C64_example :
  good 2 1 (cmv 2 1 [1; 2]) /\ good 2 1 (phy 2 1 [3; 4])
  /\ v_dot [phys (cmv 2 1 [1; 2]); phys (phy 2 1 [3; 4])] [] = Ok [2 * 3 + 4 * 4].
Proof.
  split; [apply good_cmv|]. split; [apply good_phy|].
  unfold phys, cmv, phy, lab. cbn [acm acf avals map]. rewrite rp21.
  unfold v_dot. cbn [length Nat.eqb map2 sum_of fold_right]. f_equal. f_equal. lra.
Qed.

(** * C65 *)

(** A variance keeps the exponent of its argument: computed from comoving numbers it
    stands for [s^-k] times the variance. *)
Theorem C65_variance : forall s k x, 0 < s -> good s k x ->
  (acm x = Some true ->
     stands s k (npcall Nvar v_var [OArr x] []) (rscale (Rpower s (- k)) (v_var [phys x] [])))
  /\ (acm x = Some false -> stands s k (npcall Nvar v_var [OArr x] []) (v_var [phys x] [])).
Proof.
  intros s k x S X. unfold npcall.
  destruct (call_mislabelled s v_var (rule_of Nvar) [OArr x] [] [k] [] (2 * k) k S) as [C P];
    [szs|constructor|cbn [map rule_of first]; rewrite (cf_of _ _ _ X); reflexivity|apply hom_var|].
  cbn [app] in C, P. rewrite (frame1 s k x X) in C, P. replace (k - 2 * k) with (- k) in C by lra.
  split; intro H; [exact (C H)|exact (P H)].
Qed.
Theorem C65_variance_refuted : exists s k x r, 0 < s /\ good s k x /\ npcall Nvar v_var [OArr x] [] = Ok r
  /\ v_var [phys x] [] <> Ok (phys r).
Proof.
  exists 2, 1, (cmv 2 1 [0; 2]).
  destruct (C65_variance 2 1 (cmv 2 1 [0; 2]) ltac:(lra) (good_cmv _ _ _)) as [C _]. specialize (C eq_refl).
  destruct (npcall Nvar v_var [OArr (cmv 2 1 [0; 2])] []) as [r|e]; [|destruct C].
  exists r. split; [lra|]. split; [apply good_cmv|]. split; [reflexivity|].
  unfold phys at 1 in C. unfold phys at 1. unfold cmv, lab in *. cbn [acm acf avals map] in *. rewrite rp21 in *.
  unfold v_var in *. destruct C as [_ C]. rewrite C. unfold mean, scale. cbn [map sum_of fold_right length INR].
  rewrite pow_neg, rp21. intro E. injection E as E. lra.
Qed.

(** Fourier transforms invert the label, though they are linear. *)
Definition transforms : list npfun :=
  [Nfft; Nfft2; Nfftn; Nhfft; Nrfft; Nrfft2; Nrfftn; Nifft; Nifft2; Nifftn; Nihfft; Nirfft; Nirfft2; Nirfftn].
Theorem C65_fourier : forall s k x n f, 0 < s -> good s k x -> In n transforms -> homogeneous f [k] [] k ->
  (acm x = Some true ->
     stands s (- k) (npcall n f [OArr x] []) (rscale (Rpower s (- (2 * k))) (f [phys x] [])))
  /\ (acm x = Some false -> stands s (- k) (npcall n f [OArr x] []) (f [phys x] [])).
Proof.
  intros s k x n f S X N H. unfold npcall.
  assert (R : rule_of n (map op_cf [OArr x]) (map op_cf []) = Ok (lcf s (- k))).
  { cbn [map]. rewrite (cf_of _ _ _ X).
    assert (E : first h_reciprocal [lcf s k] [] = Ok (lcf s (- k))).
    { unfold first, h_reciprocal, h_power, lcf. cbn [bind]. unfold cf_pow. cbn [cexpr cscale]. replace (k * -1) with (- k) by lra. reflexivity. }
    repeat (destruct N as [<-|N]; [exact E|]). destruct N. }
  destruct (call_mislabelled s f (rule_of n) [OArr x] [] [k] [] k (- k) S) as [C P];
    [szs|constructor|exact R|exact H|].
  cbn [app] in C, P. rewrite (frame1 s k x X) in C, P. replace (- k - k) with (- (2 * k)) in C by lra.
  split; intro B; [exact (C B)|exact (P B)].
Qed.
Theorem C65_fourier_refuted : exists s k x r, 0 < s /\ good s k x /\ npcall Nfft v_fft [OArr x] [] = Ok r
  /\ v_fft [phys x] [] <> Ok (phys r).
Proof.
  exists 2, 1, (cmv 2 1 [1]).
  destruct (C65_fourier 2 1 (cmv 2 1 [1]) Nfft v_fft ltac:(lra) (good_cmv _ _ _) (or_introl eq_refl) (hom_fft 1)) as [C _].
  specialize (C eq_refl).
  destruct (npcall Nfft v_fft [OArr (cmv 2 1 [1])] []) as [r|e]; [|destruct C].
  exists r. split; [lra|]. split; [apply good_cmv|]. split; [reflexivity|].
  unfold phys at 1 in C. unfold phys at 1. unfold cmv, lab in *. cbn [acm acf avals map] in *. rewrite rp21 in *.
  unfold v_fft in *. destruct C as [_ C]. rewrite C. cbn [length seq map nth sum_of fold_right app scale].
  unfold scale. cbn [map app INR].
  replace (2 * PI * 0 * 0 / 1) with 0 by field. rewrite cos_0, pow_neg, pow2, rp21. intro E. injection E as E _. lra.
Qed.

(** [einsum] treats products like sums: different labels are refused, equal ones are
    kept although the result scales like their product. *)
Theorem C65_einsum : forall s k x y f, 0 < s -> good s k x -> good s k y ->
  homogeneous f [k; k] [] (k + k) ->
  (some_comoving [OArr x; OArr y] = true ->
    stands s k (npcall Neinsum f [OArr x; OArr y] []) (rscale (Rpower s (- k)) (f [phys x; phys y] [])))
  /\ (some_comoving [OArr x; OArr y] = false ->
    stands s k (npcall Neinsum f [OArr x; OArr y] []) (f [phys x; phys y] [])).
Proof.
  intros s k x y f S X Y H. unfold npcall.
  destruct (call_mislabelled s f (rule_of Neinsum) [OArr x; OArr y] [] [k; k] [] (k + k) k S) as [C P];
    [szs|constructor| |exact H|].
  { cbn [map rule_of]. rewrite (cf_of _ _ _ X), (cf_of _ _ _ Y). apply (h_preserve_all s k 1). }
  cbn [app] in C, P. rewrite some_comoving_frame in C, P. replace (k - (k + k)) with (- k) in C by lra.
  split; intro B; rewrite B in C, P; [exact (C eq_refl)|exact (P eq_refl)].
Qed.
Theorem C65_einsum_rejects : forall s j k x y f, good s j x -> good s k y ->
  isclose (Rpower s j) (Rpower s k) = false ->
  npcall Neinsum f [OArr x; OArr y] [] = Err ValueError.
Proof.
  intros s j k x y f X Y NE. unfold npcall, call.
  assert (C : Forall conv (arrs ([OArr x; OArr y] ++ []))) by (eapply conv2; eassumption).
  destruct (prepare_conv [OArr x; OArr y] [] C) as (a & w & -> & _). cbn [bind k_cfs k_kwcfs map].
  rewrite (cf_of _ _ _ X), (cf_of _ _ _ Y). cbn [rule_of].
  assert (R : h_preserve2 (lcf s j) (lcf s k) = Err ValueError).
  { unfold h_preserve2, lcf, cf_eq, a_factor. cbn [cexpr cscale]. rewrite NE, andb_false_r. reflexivity. }
  unfold h_preserve, reduce. cbn [reduce_from]. rewrite R. reflexivity.
Qed.

(** Rounding works on the stored numbers: 0.6 comoving is 1.2 physical. *)
Lemma up_is : forall r z, r < IZR z -> IZR z <= r + 1 -> up r = z.
Proof. intros r z A B. symmetry. apply tech_up; assumption. Qed.
Theorem C65_rounding_refuted : exists s k x r, 0 < s /\ good s k x /\ npcall Naround v_around [OArr x] [] = Ok r
  /\ good s k r /\ v_around [phys x] [] <> Ok (phys r).
Proof.
  exists 2, 1, (cmv 2 1 [6 / 10]). eexists.
  split; [lra|]. split; [apply good_cmv|]. split; [reflexivity|]. split; [apply (good_label 2 1)|].
  unfold phys, label, cmv, lab. cbn [acm acf avals map v_around numbers op_vals k_args k_cm k_vt k_comp op_cf]. rewrite rp21.
  rewrite (up_is (2 * (6 / 10) - / 2) 1) by lra. rewrite (up_is (6 / 10 - / 2) 1) by lra.
  intro E. injection E as E. lra.
Qed.

(** A determinant takes its exponent from the length of the first axis: right for one
    matrix, wrong for a stack of 2 by 2 matrices unless there are two of them. *)
Theorem C65_determinants : forall s k x m, 0 < s -> good s k x ->
  (acm x = Some true ->
    stands s (k * INR m) (np_det v_det2 m x) (rscale (Rpower s (k * (INR m - 2))) (v_det2 [phys x] [])))
  /\ (acm x = Some false -> stands s (k * INR m) (np_det v_det2 m x) (v_det2 [phys x] [])).
Proof.
  intros s k x m S X. unfold np_det.
  destruct (call_mislabelled s v_det2 (first (fun c => h_power c None (INR m))) [OArr x] [] [k] [] (2 * k) (k * INR m) S) as [C P];
    [szs|constructor|cbn [map first]; rewrite (cf_of _ _ _ X); reflexivity|apply hom_det2|].
  cbn [app] in C, P. rewrite (frame1 s k x X) in C, P. replace (k * INR m - 2 * k) with (k * (INR m - 2)) in C by lra.
  split; intro H; [exact (C H)|exact (P H)].
Qed.
Theorem C65_determinant : forall s k x, 0 < s -> good s k x ->
  stands s (k * 2) (np_det v_det2 2 x) (v_det2 [phys x] []).
Proof.
  intros s k x S X. destruct (C65_determinants s k x 2 S X) as [C P]. destruct (good_cm _ _ _ X) as ([|] & B).
  - specialize (C B). replace (INR 2 - 2) with 0 in C by (cbn; lra). rewrite Rmult_0_r, Rpower_0r in C.
    cbn [v_det2 rscale] in C. rewrite scale_1 in C. replace (INR 2) with 2 in C by (cbn; lra). exact C.
  - specialize (P B). replace (INR 2) with 2 in P by (cbn; lra). exact P.
Qed.

(** A product over part of an array is labelled as if all entries had been multiplied. *)
Lemma masked_scale : forall m c v, masked m (scale c v) = scale c (masked m v).
Proof.
  unfold masked. induction m as [|b m IH]; intros c [|x v]; try reflexivity.
  specialize (IH c v). unfold scale in *. cbn [map combine filter fst]. destruct b; cbn [map snd]; rewrite IH; reflexivity.
Qed.
Lemma prod_pow : forall s k l, prodR (scale (Rpower s k) l) = Rpower s (k * INR (length l)) * prodR l.
Proof.
  intros s k. induction l as [|x l IH].
  - cbn [scale map length INR]. rewrite Rmult_0_r, Rpower_0r. cbn. lra.
  - change (scale (Rpower s k) (x :: l)) with (Rpower s k * x :: scale (Rpower s k) l).
    change (prodR (Rpower s k * x :: scale (Rpower s k) l)) with (Rpower s k * x * prodR (scale (Rpower s k) l)).
    change (prodR (x :: l)) with (x * prodR l). rewrite IH. cbn [length]. rewrite S_INR.
    replace (k * (INR (length l) + 1)) with (k + k * INR (length l)) by lra. rewrite Rpower_plus. ring.
Qed.
Theorem C65_masked_product : forall s k x m, 0 < s -> good s k x -> acm x = Some true ->
  let n := INR (length (avals x)) in
  let used := INR (length (masked m (phys x))) in
  exists r, np_prod m x = Ok r /\ good s (k * n) r
    /\ phys r = [Rpower s (k * (n - used)) * prodR (masked m (phys x))].
Proof.
  intros s k x m S X B n used. unfold np_prod, call.
  assert (C : Forall conv (arrs ([OArr x] ++ [OPlain []; OPlain []; OPlain []; OPlain []; OPlain []; OPlain []])))
    by (eapply conv1; exact X).
  destruct (prepare_conv _ _ C) as (a & w & -> & Na & _).
  change (frame ([OArr x] ++ [OPlain []; OPlain []; OPlain []; OPlain []; OPlain []; OPlain []])) with (frame [OArr x]) in *.
  rewrite (frame1 s k x X), B in *. cbn [bind k_cfs k_kwcfs map first]. rewrite (cf_of _ _ _ X).
  change (h_power (lcf s k) None (INR (length (avals x)))) with (Ok (lcf s (k * n))).
  cbn [bind k_args k_kw]. rewrite Na. cbn [map bind]. rewrite (in_frame_avals s k x true X B).
  eexists. split; [reflexivity|]. unfold label. cbn [k_cm k_vt k_comp]. split; [apply good_label|].
  rewrite good_phys_label. unfold ffac. cbn [is_true]. rewrite scale_one. f_equal.
  rewrite (avals_phys s k x true X B) in *. unfold used. rewrite (avals_phys s k x true X B). unfold ffac. cbn [is_true].
  rewrite masked_scale, prod_pow, scale_length, <- Rmult_assoc, <- Rpower_plus. f_equal. f_equal. lra.
Qed.

(** [clip] accepts the keywords [min] and [max] and ignores them. *)
Theorem C65_clip_keywords_ignored : forall f a lo hi mn mx,
  np_clip f a lo hi mn mx = np_clip f a lo hi None None.
Proof. reflexivity. Qed.

(** [where] with a condition alone never returns. *)
Theorem C65_where_condition : forall f c, (forall r, np_where f c [] <> Ok r)
  /\ (forall v, np_where f (OPlain v) [] = Err IndexError)
  /\ (forall s k x, good s k x -> np_where f (OArr x) [] = Err IndexError).
Proof.
  intros f c. split; [|split].
  - intros r E. unfold np_where in E. destruct (prepare_kw true [c] []); discriminate E.
  - reflexivity.
  - intros s k x X. unfold np_where. destruct (prep_ok s [OArr x] [] [k] []) as (p & P); [szs|constructor|]. rewrite P. reflexivity.
Qed.

(** * C66 *)

(** Stacking and concatenating arrays with one exponent, in any mixture of coordinates. *)
Theorem C66_stacks : forall s k x xs f, 0 < s -> good s k x -> Forall (good s k) xs ->
  homogeneous f (k :: repeat k (length xs)) [] k ->
  stands s k (oplist f (OArr x :: map OArr xs) [] []) (f (phys x :: map phys xs) []).
Proof.
  intros s k x xs f S X H F.
  replace (map phys xs) with (map op_phys (map OArr xs)) by (rewrite map_map; reflexivity).
  apply (oplist_stands s f x (map OArr xs) [] [] k (repeat k (length xs)) [] S X).
  - clear F. induction H; cbn; constructor; [constructor; assumption|assumption].
  - exact F.
  - intros a [].
  - reflexivity.
Qed.
Theorem C66_concatenate : forall s k x xs, 0 < s -> good s k x -> Forall (good s k) xs ->
  stands s k (oplist v_concat (OArr x :: map OArr xs) [] []) (Ok (concat (phys x :: map phys xs))).
Proof. intros s k x xs S X H. exact (C66_stacks s k x xs v_concat S X H (hom_concat (Datatypes.S (length xs)) k)). Qed.

(** Nothing compares the labels: arrays that scale differently are joined under the
    label of the first one. *)
Theorem C66_labels_not_compared_refuted : exists s x y r,
  0 < s /\ good s 1 x /\ good s 0 y /\ oplist v_concat [OArr x; OArr y] [] [] = Ok r
  /\ good s 1 r /\ phys r <> phys x ++ phys y.
Proof.
  exists 2, (cmv 2 1 [1]), (cmv 2 0 [1]). eexists.
  split; [lra|]. split; [apply good_cmv|]. split; [apply good_cmv|]. split; [reflexivity|].
  split; [apply (good_label 2 1)|]. unfold phys, label, cmv, lab. cbn [acm acf avals map app k_cm k_vt k_comp op_cf numbers op_vals concat]. rewrite rp21, Rpower_0r.
  intro E. injection E as E. lra.
Qed.

(** With plain numbers first, the result has no label, and converting it fails. *)
Theorem C66_plain_first : forall s k v x, good s k x -> acm x = Some true ->
  exists r, oplist v_concat [OPlain v; OArr x] [] [] = Ok r
    /\ acf r = None /\ acm r = Some true /\ avals r = v ++ avals x /\ to_physical r = Err AttributeError.
Proof.
  intros s k v x X B. unfold oplist.
  change (prepare_kw true [OPlain []] []) with (Ok (mkprepk [OPlain []] [] [None] [] None true (CPair false CNone) false)).
  cbn [bind].
  assert (C : Forall conv (arrs ([OPlain v; OArr x] ++ []))) by (eapply conv1; exact X).
  destruct (prepare_conv _ _ C) as (a & w & -> & Na & _).
  change (frame ([OPlain v; OArr x] ++ [])) with (frame [OArr x]) in *.
  rewrite (frame1 s k x X), B in *. cbn [bind k_cfs k_args map op_cf]. rewrite Na. cbn [map v_concat bind].
  eexists. split; [reflexivity|]. unfold label. cbn [acf acm avals k_cm k_vt]. repeat split.
  rewrite (in_frame_avals s k x true X B). cbn [in_frame op_comov concat]. rewrite app_nil_r. reflexivity.
Qed.

(** [select] with a plain default: the result no longer knows its coordinates and cannot
    be converted. *)
Theorem C66_select : forall s k n conds xs d, Forall (good s k) xs -> xs <> [] ->
  exists r, np_select n conds (map OArr xs) (OPlain [d]) = Ok r
    /\ acm r = None /\ to_physical r = Err InvalidConversion /\ to_comoving r = Err InvalidConversion.
Proof.
  intros s k n conds xs d H N. destruct (select_plain s k n conds xs d H N) as (r & E & C & M & V & _).
  exists r. split; [exact E|]. split; [exact M|].
  unfold to_physical, to_comoving, convert_to_physical, convert_to_comoving. rewrite M, V. split; reflexivity.
Qed.
(** With a default array, and all arrays in the same coordinates, it is right. *)
Theorem C66_select_default : forall s k n conds xs z d b, Forall (good s k) xs -> xs <> [] -> good s k z ->
  Forall (fun x => acm x = Some b) xs -> acm z = Some b -> phys z = [d] ->
  exists r, np_select n conds (map OArr xs) (OArr z) = Ok r /\ good s k r
    /\ phys r = selectv n conds (map phys xs) d.
Proof. exact select_array. Qed.
(** Entry for entry: the first choice whose condition holds, or the default. *)
Theorem C66_select_values : forall n conds (choices : list (list R)) d, length (selectv n conds choices d) = n
  /\ forall i, (i < n)%nat ->
     (forall k c v x, nth_error conds k = Some c -> nth_error choices k = Some v ->
        nth_error c i = Some true -> nth_error v i = Some x ->
        (forall j c', (j < k)%nat -> nth_error conds j = Some c' -> nth_error c' i = Some false) ->
        nth_error (selectv n conds choices d) i = Some x)
     /\ ((forall k c, nth_error conds k = Some c -> nth_error c i = Some false) ->
        nth_error (selectv n conds choices d) i = Some d).
Proof.
  intros n conds choices d. unfold selectv. split; [now rewrite map_length, seq_length|]. intros i Hi.
  assert (E : nth_error (map (fun i => pick_first conds choices i d) (seq 0 n)) i = Some (pick_first conds choices i d)).
  { rewrite nth_error_map. rewrite (nth_error_nth' _ 0%nat) by (now rewrite seq_length). rewrite seq_nth by exact Hi. reflexivity. }
  rewrite E. clear E Hi. split.
  - intros k. revert conds choices. induction k as [|k IH]; intros conds choices c v x Hc Hv Ht Hx Hb.
    + destruct conds as [|c0 cs]; [discriminate|]. destruct choices as [|v0 vs]; [discriminate|]. injection Hc as ->. injection Hv as ->.
      cbn [pick_first]. rewrite (nth_error_nth _ _ false Ht), (nth_error_nth _ _ 0 Hx). reflexivity.
    + destruct conds as [|c0 cs]; [discriminate|]. destruct choices as [|v0 vs]; [discriminate|]. cbn [nth_error] in Hc, Hv.
      cbn [pick_first]. rewrite (nth_error_nth c0 i false (Hb 0%nat c0 (Nat.lt_0_succ k) eq_refl)). apply (IH cs vs c v x Hc Hv Ht Hx).
      intros j c' Hj Hjc. exact (Hb (S j) c' ltac:(lia) Hjc).
  - revert choices. induction conds as [|c0 cs IH]; intros choices Hb; [reflexivity|]. destruct choices as [|v0 vs]; [reflexivity|].
    cbn [pick_first]. rewrite (nth_error_nth c0 i false (Hb 0%nat c0 eq_refl)). apply IH. intros k c Hk. exact (Hb (S k) c Hk).
Qed.
Example select_example : selectv 3 [[true; false; false]; [true; true; false]] [[1; 2; 3]; [4; 5; 6]] 7 = [1; 5; 7].
Proof. reflexivity. Qed.
(** But a physical default labels comoving choices as physical. *)
Theorem C66_select_refuted : exists s x z r, 0 < s /\ good s 1 x /\ good s 1 z
  /\ np_select 1 [[true]] [OArr x] (OArr z) = Ok r /\ good s 1 r /\ phys r <> phys x.
Proof.
  exists 2, (cmv 2 1 [1]), (phy 2 1 [0]). eexists.
  split; [lra|]. split; [apply good_cmv|]. split; [apply good_phy|]. split; [reflexivity|].
  split; [apply (good_label 2 1)|]. unfold phys, label, cmv, phy, lab. cbn [acm acf avals map k_cm k_vt k_comp op_cf]. rewrite rp21.
  intro E. injection E as E. lra.
Qed.
(** [choose] never converts its choices, and its result cannot be converted. *)
Theorem C66_choose : forall s k idx xs, Forall (good s k) xs -> xs <> [] ->
  exists r, np_choose idx (map OArr xs) = Ok r
    /\ avals r = choosev idx (map avals xs) /\ acm r = None
    /\ to_physical r = Err InvalidConversion /\ to_comoving r = Err InvalidConversion.
Proof.
  intros s k idx xs H N. destruct (choose_ok s k idx xs H N) as (r & E & C & M & V & A).
  exists r. split; [exact E|]. split; [exact A|]. split; [exact M|].
  unfold to_physical, to_comoving, convert_to_physical, convert_to_comoving. rewrite M, V. split; reflexivity.
Qed.
(** [block] converts its blocks correctly, but the label of the result is a list:
    converting the result to the other coordinates fails. *)
Theorem C66_block : forall s k f xs v, 0 < s -> Forall (good s k) xs -> xs <> [] ->
  (forall c vs, 0 < c -> f (map (scale c) vs) = rscale c (f vs)) ->
  f (map phys xs) = Ok v ->
  exists r b, np_block f (map OArr xs) = Ok r
    /\ b_label r = [lab s k] /\ b_cm r = Some b /\ v = scale (if b then Rpower s k else 1) (b_vals r)
    /\ (if b then block_to_physical r else block_to_comoving r) = Err AttributeError
    /\ (if b then block_to_comoving r else block_to_physical r) = Ok r.
Proof.
  intros s k f xs v S H N L F. destruct (block_ok s k f xs H N) as (cp & E).
  set (b := existsb (fun x => is_true (acm x)) xs) in *.
  assert (P : map phys xs = map (scale (ffac s k (Some b))) (map (fun x => in_frame (Some b) (OArr x)) xs)).
  { rewrite map_map. apply map_ext_in. intros y Hy. apply (phys_ffac s k (OArr y) (Some b)). constructor.
    rewrite Forall_forall in H. apply H. exact Hy. }
  rewrite P, (L _ _ (ffac_pos s k (Some b))) in F.
  destruct (f (map (fun x => in_frame (Some b) (OArr x)) xs)) as [u|]; [|discriminate F].
  injection F as <-. cbn [bind] in E. eexists. exists b. split; [exact E|].
  cbn [b_label b_cm b_vals b_vt]. unfold block_to_physical, block_to_comoving. cbn [b_cm b_vt].
  destruct b; repeat split.
Qed.
(** Blocks of known coordinates are not joined with plain arrays or arrays of unknown ones. *)
Theorem C66_block_unknown : forall f leaves,
  (exists x, In (OArr x) leaves /\ acm x <> None) ->
  (exists o, In o leaves /\ match o with OArr x => acm x = None | OPlain _ => True end) ->
  np_block f leaves = Err ValueError.
Proof.
  intros f leaves (x & Hx & Nx) (o & Ho & No). unfold np_block.
  assert (P : exists ps, all_ok (map (fun o => prepare_kw true [o] []) leaves) = Ok ps /\
              map k_cm ps = map (fun o => match o with OArr x => acm x | OPlain _ => None end) leaves).
  { clear. induction leaves as [|o l (ps & E & M)]; [exists []; split; reflexivity|].
    cbn [map all_ok].
    assert (exists p, prepare_kw true [o] [] = Ok p /\ k_cm p = match o with OArr x => acm x | OPlain _ => None end) as (p & -> & Hp).
    { destruct o as [x|v]; unfold prepare_kw; cbn; [|eexists; split; reflexivity].
      destruct (acm x) as [[]|]; cbn; eexists; split; reflexivity. }
    rewrite E. exists (p :: ps). split; [reflexivity|]. cbn. now rewrite Hp, M. }
  destruct P as (ps & -> & M). cbn [bind]. rewrite M.
  set (cms := map _ leaves).
  assert (I1 : In (acm x) cms) by (unfold cms; apply in_map_iff; exists (OArr x); split; [reflexivity|exact Hx]).
  assert (I2 : In None cms).
  { unfold cms. apply in_map_iff. exists o. split; [|exact Ho]. now destruct o. }
  assert (E1 : forallb is_true cms = false).
  { destruct (forallb is_true cms) eqn:E; [|reflexivity]. rewrite forallb_forall in E. discriminate (E _ I2). }
  assert (E2 : forallb is_none cms = false).
  { destruct (forallb is_none cms) eqn:E; [|reflexivity]. rewrite forallb_forall in E. specialize (E _ I1).
    destruct (acm x); [discriminate|congruence]. }
  assert (E3 : existsb is_none cms = true) by (apply existsb_exists; exists None; split; [exact I2|reflexivity]).
  rewrite E1, E2, E3. reflexivity.
Qed.

Example C66_example :
  Forall (good 2 1) [cmv 2 1 [1]; phy 2 1 [3]]
  /\ concat (map phys [cmv 2 1 [1]; phy 2 1 [3]]) = [2 * 1; 3].
Proof.
  split; [constructor; [apply good_cmv|constructor; [apply good_phy|constructor]]|].
  unfold phys, cmv, phy, lab. cbn [acm acf avals map concat app]. rewrite rp21. reflexivity.
Qed.

(** * C67 *)

(** [put], [place], [putmask], [put_along_axis], [copyto], [fill_diagonal] with an array:
    the destination keeps its coordinates and stands for the physical values with the
    source written in; the source is converted in place and keeps its meaning. *)
Theorem C67_writing : forall s k write x y, good s k x -> good s k y -> scaling_write write ->
  forall fn, In fn [np_put; np_copyto; np_fill_diagonal] ->
  exists x' y', fn write (OArr x) (OArr y) = Ok (OArr x', OArr y')
    /\ good s k x' /\ acm x' = acm x /\ phys x' = write (phys x) (phys y)
    /\ good s k y' /\ acm y' = acm x /\ phys y' = phys y.
Proof.
  intros s k write x y X Y W fn I.
  assert (A : wrote s k write x y (fn write (OArr x) (OArr y))).
  { destruct I as [<-|[<-|[<-|[]]]]; [apply put_wrote|apply copyto_wrote|apply fill_wrote]; assumption. }
  destruct A as (x' & y' & A). exists x', y'. tauto.
Qed.
(** Different labels are refused. *)
Theorem C67_unequal_labels_rejected : forall s j k write x y, good s j x -> good s k y ->
  isclose (Rpower s j) (Rpower s k) = false ->
  forall fn, In fn [np_put; np_copyto; np_fill_diagonal] ->
  fn write (OArr x) (OArr y) = Err ValueError.
Proof.
  intros s j k write x y X Y NE fn I.
  assert (R : h_preserve2 (op_cf (OArr x)) (op_cf (OArr y)) = Err ValueError).
  { rewrite (cf_of _ _ _ X), (cf_of _ _ _ Y). unfold h_preserve2, lcf, cf_eq, a_factor. cbn [cexpr cscale]. rewrite NE, andb_false_r. reflexivity. }
  destruct I as [<-|[<-|[<-|[]]]].
  - unfold np_put. destruct (prep_ok s [OArr x; OPlain []; OArr y] [OPlain []] [j; 0; k] [0]) as (p & ->); [szs|szs|].
    cbn [bind]. rewrite R. reflexivity.
  - unfold np_copyto. destruct (prep_ok s [OArr x; OArr y] [OPlain []; OPlain []] [j; k] [0; 0]) as (p & ->); [szs|szs|].
    cbn [bind]. change (acf x) with (op_cf (OArr x)). change (acf y) with (op_cf (OArr y)). rewrite R. reflexivity.
  - unfold np_fill_diagonal. destruct (prep_ok s [OArr x; OArr y] [OPlain []] [j; k] [0]) as (p & ->); [szs|szs|].
    cbn [bind]. rewrite R. reflexivity.
Qed.
(** Plain numbers: [put] and [copyto] write them as they are, in the coordinates of the
    destination; [fill_diagonal] fails. *)
Theorem C67_plain_numbers : forall s k write x v, good s k x ->
  np_put write (OArr x) (OPlain v) = Ok (OArr (with_vals x (write (avals x) v)), OPlain v)
  /\ np_copyto write (OArr x) (OPlain v) = Ok (OArr (with_vals x (write (avals x) v)), OPlain v)
  /\ np_fill_diagonal write (OArr x) (OPlain v) = Err AttributeError.
Proof.
  intros s k write x v X. destruct (good_cm _ _ _ X) as (b & B). repeat split.
  - unfold np_put. destruct (prep_ok s [OArr x; OPlain []; OPlain v] [OPlain []] [k; 0; 0] [0]) as (p & ->); [szs|szs|].
    cbn [bind]. rewrite (cf_of _ _ _ X). reflexivity.
  - unfold np_copyto. destruct (prep_ok s [OArr x; OPlain v] [OPlain []; OPlain []] [k; 0] [0; 0]) as (p & ->); [szs|szs|].
    reflexivity.
  - unfold np_fill_diagonal. destruct (prep_ok s [OArr x; OPlain v] [OPlain []] [k; 0] [0]) as (p & ->); [szs|szs|].
    cbn [bind]. rewrite (cf_of _ _ _ X). cbn [h_preserve2 lcf op_cf bind op_cm snd]. rewrite B. reflexivity.
Qed.

(** With [out=]: the returned array is right.  The output array is right too if it is
    comoving or no argument is; a physical output array with comoving arguments is
    relabelled as comoving and left with its old numbers. *)
Theorem C67_out : forall s f h args kw aks kks e x ko v, 0 < s ->
  Forall2 (sized s) args aks -> Forall2 (sized s) kw kks -> good s ko x ->
  h (map op_cf args) (map op_cf (kw ++ [OArr x])) = Ok (Some (mkcf (Some e) (Some s))) ->
  homogeneous f aks kks e ->
  f (map op_phys args) (map op_phys kw) = Ok v ->
  exists r o, call_out f h args kw (OArr x) = Ok (r, OArr o)
    /\ good s e r /\ phys r = v /\ good s e o
    /\ (acm x = Some true \/ some_comoving (args ++ kw) = false -> phys o = v)
    /\ (acm x = Some false -> some_comoving (args ++ kw) = true -> avals o = avals x /\ acm o = Some true).
Proof. exact out_stands. Qed.
Theorem C67_out_refuted : exists s x out r o, 0 < s /\ good s 1 x /\ good s 1 out
  /\ call_out v_norm (first keep) [OArr x] [] (OArr out) = Ok (r, OArr o)
  /\ good s 1 o /\ phys o <> phys r.
Proof.
  exists 2, (cmv 2 1 [3]), (phy 2 1 [0]).
  destruct (out_stands 2 v_norm (first keep) [OArr (cmv 2 1 [3])] [] [1] [] 1 (phy 2 1 [0]) 1
              [sqrt (2 * 3 * (2 * 3) + 0)]) as (r & o & E & Gr & Pr & Go & _ & B).
  - lra.
  - constructor; [apply sized_good; apply good_cmv|constructor].
  - constructor.
  - apply good_phy.
  - reflexivity.
  - apply hom_norm.
  - unfold phys, cmv, lab. cbn [map op_phys acm acf avals v_norm sum_of fold_right]. unfold phys. cbn [acm acf avals map].
    rewrite rp21. reflexivity.
  - exists r, o. split; [lra|]. split; [apply good_cmv|]. split; [apply good_phy|]. split; [exact E|]. split; [exact Go|].
    destruct (B eq_refl eq_refl) as [A C]. rewrite Pr. unfold phys. rewrite C, (g_cf _ _ _ Go), A. cbn [map phy avals].
    rewrite rp21. intro Q. injection Q as Q.
    assert (0 < sqrt (2 * 3 * (2 * 3) + 0)) by (apply sqrt_lt_R0; lra). lra.
Qed.

Example C67_example :
  scaling_write (fun a b => firstn 1 b ++ skipn 1 a)
  /\ good 2 1 (cmv 2 1 [1; 5]) /\ good 2 1 (phy 2 1 [4])
  /\ firstn 1 (phys (phy 2 1 [4])) ++ skipn 1 (phys (cmv 2 1 [1; 5])) = [4; 2 * 5].
Proof.
  split; [|split; [apply good_cmv|split; [apply good_phy|]]].
  - intros c a b _. unfold scale. destruct b as [|u b], a as [|v a]; cbn [firstn skipn map app]; reflexivity.
  - unfold phys, cmv, phy, lab. cbn [acm acf avals map firstn skipn app]. rewrite rp21. reflexivity.
Qed.

(** * C68 *)

(** A weighted average is right for any mixture of coordinates.  The sum of weights
    returned with it is right unless the weights are physical and the data comoving:
    then it stands for [s^k] times the sum. *)
Theorem C68_average : forall s j k x w v, 0 < s -> good s j x -> good s k w ->
  broadcast Rmult (phys x) (phys w) = Ok v ->
  exists r wr, np_average x (OArr w) = Ok (r, OArr wr)
    /\ good s j r /\ phys r = [sumR v / sumR (phys w)]
    /\ good s k wr
    /\ (acm x = Some false \/ acm w = Some true -> phys wr = [sumR (phys w)])
    /\ (acm x = Some true -> acm w = Some false -> phys wr = [Rpower s k * sumR (phys w)]).
Proof.
  intros s j k x w v S X W B. destruct (average_array s j k x w v S X W B) as (r & wr & E & Gr & _ & Pr & Gw & _ & Pw).
  exists r, wr. repeat (split; [assumption|]). rewrite Pw.
  destruct (good_cm _ _ _ X) as (bx & Bx). destruct (good_cm _ _ _ W) as (bw & Bw). rewrite Bx, Bw.
  pose proof (ffac_pos s k (Some bw)) as F.
  split.
  - intro H. replace (is_true (Some bx) || is_true (Some bw)) with bw.
    + rewrite scale_one. f_equal. field. lra.
    + destruct H as [H|H]; injection H as ->; [destruct bw; reflexivity|destruct bx; reflexivity].
  - intros H1 H2. injection H1 as ->. injection H2 as ->. unfold ffac. cbn [is_true orb]. rewrite scale_one. f_equal. lra.
Qed.
Theorem C68_average_plain_weights : forall s j x w v, 0 < s -> good s j x ->
  broadcast Rmult (phys x) w = Ok v ->
  exists r, np_average x (OPlain w) = Ok (r, OPlain [sumR w])
    /\ good s j r /\ acm r = acm x /\ phys r = [sumR v / sumR w].
Proof. exact average_plain. Qed.

(** [max], [min], [mean], [median], [sort], [sum], [partition], [meshgrid]: reductions and
    rearrangements keep label and coordinates. *)
Theorem C68_reductions : forall s k f x, 0 < s -> good s k x -> linear f ->
  stands s k (propagate f x) (f (phys x)) /\ (forall r, propagate f x = Ok r -> acm r = acm x).
Proof. exact propagate_stands. Qed.
Theorem C68_meshgrid : forall s gs xs ks, 0 < s -> Forall2 (good s) ks xs -> length gs = length xs ->
  (forall g c v, In g gs -> 0 < c -> g (scale c v) = scale c (g v)) ->
  Forall2 (good s) ks (np_meshgrid gs xs)
  /\ map phys (np_meshgrid gs xs) = map2 (fun g x => g (phys x)) gs xs.
Proof.
  intros s gs xs ks S H. revert gs. unfold np_meshgrid. induction H as [|k x ks xs X _ IH]; intros [|g gs] L G;
    try discriminate L; [split; [constructor|reflexivity]|].
  injection L as L. destruct (IH gs L) as [A B]; [intros; apply G; [right; assumption|assumption]|].
  cbn [map2 map]. rewrite B. split.
  - constructor; [|exact A]. destruct X as [c m v]. constructor; assumption.
  - f_equal. destruct (good_cm _ _ _ X) as (b & Bx).
    assert (X' : good s k (with_vals x (g (avals x)))) by (destruct X as [c m v]; constructor; assumption).
    rewrite (avals_phys s k _ b X' Bx), (avals_phys s k x b X Bx). cbn [with_vals avals].
    rewrite G; [reflexivity|left; reflexivity|apply ffac_pos].
Qed.

(** With [initial]: right unless the array is physical and the initial value comoving;
    then the comoving result is labelled physical. *)
Theorem C68_initial : forall s k f x i v, 0 < s -> good s k x -> good s k i ->
  homogeneous f [k] [k] k -> f [phys x] [phys i] = Ok v ->
  exists r, propagate_initial f x (OArr i) = Ok r /\ good s k r
    /\ (acm x = Some true \/ acm i = Some false -> phys r = v)
    /\ (acm x = Some false -> acm i = Some true -> phys r = scale (/ Rpower s k) v).
Proof.
  intros s k f x i v S X I H F. destruct (propagate_initial_ok s k f x i v S X I H F) as (r & E & G & M & P).
  exists r. split; [exact E|]. split; [exact G|]. rewrite P.
  destruct (good_cm _ _ _ X) as (bx & Bx). destruct (good_cm _ _ _ I) as (bi & Bi). rewrite Bx, Bi. split.
  - intro Q. replace (is_true (Some bx) || is_true (Some bi)) with bx.
    + pose proof (ffac_pos s k (Some bx)). replace (ffac s k (Some bx) / ffac s k (Some bx)) with 1 by (field; lra). apply scale_1.
    + destruct Q as [Q|Q]; injection Q as ->; [reflexivity|destruct bx; reflexivity].
  - intros Q1 Q2. injection Q1 as ->. injection Q2 as ->. unfold ffac. cbn [is_true orb]. f_equal. field.
    pose proof (ffac_pos s k (Some true)) as Q. unfold ffac in Q. cbn [is_true] in Q. lra.
Qed.

(** Comparisons that do not depend on the unit ([array_equal], [isin], [searchsorted], [isclose]
    without absolute tolerance) compare physical values; [isclose] with its default
    absolute tolerance depends on the coordinates. *)
Theorem C68_comparisons : forall s k A (f : list (list R) -> res A) x y kw, 0 < s ->
  good s k x -> good s k y -> (forall a, In a kw -> exists v, a = OPlain v) ->
  (forall c u v, 0 < c -> f [scale c u; scale c v] = f [u; v]) ->
  np_compare f (OArr x) (OArr y) kw = f [phys x; phys y].
Proof. exact compare_ok. Qed.
Definition close_abs (atol : R) (vs : list (list R)) : res bool :=
  match vs with [[u]; [v]] => Ok (Rleb (Rabs (u - v)) atol) | _ => Err TypeError end.
Theorem C68_isclose_refuted : exists s x y, 0 < s /\ good s 1 x /\ good s 1 y
  /\ np_compare (close_abs 1) (OArr x) (OArr y) [] = Ok true
  /\ close_abs 1 [phys x; phys y] = Ok false.
Proof.
  exists 2, (cmv 2 1 [1]), (cmv 2 1 [0]). split; [lra|]. split; [apply good_cmv|]. split; [apply good_cmv|]. split.
  - unfold np_compare. assert (C : Forall conv (arrs ([OArr (cmv 2 1 [1]); OArr (cmv 2 1 [0])] ++ [])))
      by (apply (conv2 2 1 1); apply good_cmv).
    destruct (prepare_conv _ _ C) as (a & w & -> & Na & _). cbn [bind k_cfs k_kwcfs map op_cf cmv acf two h_compare lab].
    rewrite cf_eq_same. cbn [negb bind k_args]. rewrite Na. cbn. f_equal. apply Rleb_true.
    rewrite Rminus_0_r, Rabs_R1. lra.
  - unfold phys, cmv, lab. cbn [acm acf avals map close_abs]. rewrite rp21. f_equal.
    destruct (Rleb (Rabs (2 * 1 - 2 * 0)) 1) eqn:E; [|reflexivity]. apply Rleb_true in E.
    rewrite Rabs_right in E by lra. lra.
Qed.
(** Arrays whose labels differ are not compared. *)
Theorem C68_unequal_labels_rejected : forall s j k A (f : list (list R) -> res A) x y, good s j x -> good s k y ->
  isclose (Rpower s j) (Rpower s k) = false -> np_compare f (OArr x) (OArr y) [] = Err ValueError.
Proof.
  intros s j k A f x y X Y NE. unfold np_compare.
  assert (C : Forall conv (arrs ([OArr x; OArr y] ++ []))) by (eapply conv2; eassumption).
  destruct (prepare_conv _ _ C) as (a & w & -> & _). cbn [bind k_cfs k_kwcfs map two].
  rewrite (cf_of _ _ _ X), (cf_of _ _ _ Y). unfold h_compare, lcf, cf_eq, a_factor. cbn [cexpr cscale].
  rewrite NE, andb_false_r. reflexivity.
Qed.
(** [interp] does not compare the labels of its abscissae. *)
Theorem C68_interp_labels_refuted : exists s x xp fp r, 0 < s /\ good s 0 x /\ good s 1 xp /\ good s 0 fp
  /\ npcall Ninterp v_interp [OArr x; OArr xp; OArr fp] [] = Ok r
  /\ v_interp [phys x; phys xp; phys fp] [] <> Ok (phys r).
Proof.
  exists 2, (cmv 2 0 [1]), (cmv 2 1 [0; 1]), (cmv 2 0 [0; 1]).
  eexists. split; [lra|]. do 3 (split; [apply good_cmv|]). split; [reflexivity|].
  unfold phys, cmv, lab, label. cbn [acm acf avals map k_cm k_vt k_comp v_interp numbers op_vals op_cf].
  rewrite rp21, Rpower_0r. cbn [interp1].
  destruct (Rle_dec (1 * 1) (2 * 1)) as [_|N]; [|lra]. destruct (Rle_dec (1 * 1) (2 * 0)) as [N|_]; [lra|].
  destruct (Rle_dec 1 1) as [_|N]; [|lra]. destruct (Rle_dec 1 0) as [N|_]; [lra|].
  intro E. injection E as E. lra.
Qed.

Example C68_example :
  good 2 1 (cmv 2 1 [1; 2]) /\ good 2 3 (phy 2 3 [1; 3])
  /\ broadcast Rmult (phys (cmv 2 1 [1; 2])) (phys (phy 2 3 [1; 3])) = Ok [2 * 1 * 1; 2 * 2 * 3].
Proof.
  split; [apply good_cmv|]. split; [apply good_phy|].
  unfold phys, cmv, phy, lab. cbn [acm acf avals map]. rewrite rp21. reflexivity.
Qed.

(** * C69 *)

(** Counts: edges and counts (with weights: total weights) are those of the physical
    values, in one and in several dimensions. *)
Theorem C69_counts : forall s k kw x b w, 0 < s ->
  good s k x -> good_bins s k x b -> good_weights s w kw ->
  exists counts e, np_histogram x b false w = Ok (counts, e)
    /\ good s k e /\ phys e = phys_edges x b
    /\ op_stands s kw counts (histv [phys x] [phys_edges x b] (phys_weights x w) false).
Proof. exact histogram_counts. Qed.
Theorem C69_counts_many_axes : forall s axes ks w kw, 0 < s ->
  Forall2 (good_axis s) axes ks -> good_weights s w kw ->
  exists counts es, np_hist_counts axes w = Ok (counts, es)
    /\ Forall2 (good s) ks es /\ map phys es = map (fun sb => phys_edges (fst sb) (snd sb)) axes
    /\ op_stands s kw counts
         (histv (map (fun sb => phys (fst sb)) axes) (map (fun sb => phys_edges (fst sb) (snd sb)) axes)
                (all_weights axes w) false).
Proof. exact hist_counts_ok. Qed.

(** What counts and densities are: the weights of the values in each bin, and that
    divided by the width of the bin and the grand total. *)
Theorem C69_counts_meaning : forall e j v w, length v = length w -> (S j < length e)%nat ->
  bin_total e j v w (nth j (histv [v] [e] w false) 0).
Proof. exact counts_in_bins. Qed.
Theorem C69_density_meaning : forall e j v w, (S j < length e)%nat -> nth j e 0 <> nth (S j) e 0 ->
  let total := sumR (histv [v] [e] w false) in
  total <> 0 ->
  nth j (histv [v] [e] w true) 0 * (nth (S j) e 0 - nth j e 0) * total = nth j (histv [v] [e] w false) 0.
Proof. exact densities. Qed.

(** In several dimensions: cell [js], in row-major order, holds the weights of the points
    whose coordinates lie in bins [js]. *)
Theorem C69_cells_meaning : forall es js vs w, length es = length vs ->
  Forall2 (fun e j => (S j < length e)%nat) es js ->
  weight_of (in_bins es js vs) 0 w (nth (cell_index es js) (histv vs es w false) 0).
Proof. exact grid_counts. Qed.

(** Densities are right without weights, with plain weights, or if everything is
    physical; with weights scaling as [a^kw] and a comoving array they stand for
    [s^kw] times the density. *)
Theorem C69_density : forall s k kw x b w, 0 < s ->
  good s k x -> good_bins s k x b -> good_weights s w kw ->
  exists counts e, np_histogram x b true w = Ok (OArr counts, e)
    /\ good s k e /\ phys e = phys_edges x b
    /\ good s (kw - k) counts
    /\ let true_density := histv [phys x] [phys_edges x b] (phys_weights x w) true in
       (kw = 0 -> phys counts = true_density)
       /\ (acm x = Some true -> phys counts = scale (Rpower s kw) true_density).
Proof.
  intros s k kw x b w S X B W.
  destruct (histogram_density s k kw x b w S X B W) as (bb & c & e & E & Ge & Pe & M & T & Gc & Pc).
  exists c, e. repeat (split; [assumption|]). cbn zeta. rewrite Pc. split.
  - intros ->. unfold ffac. destruct (is_true (Some bb)); [rewrite Rpower_0r|]; apply scale_1.
  - intro A. rewrite (T A). reflexivity.
Qed.

(** Two-dimensional densities: the same; each axis of edges is right if its coordinates
    (comoving if the data or the bins are) are those of the whole call, and otherwise stands for
    [s^-k] times the edges. *)
Theorem C69_density_two_axes : forall s j k kw x y bx by_ w, 0 < s ->
  good_axis s (x, bx) j -> good_axis s (y, by_) k -> good_weights s w kw ->
  exists counts ex ey, np_hist2d_density x y bx by_ w = Ok (OArr counts, [ex; ey])
    /\ good s (kw - (j + k)) counts /\ good s j ex /\ good s k ey
    /\ let true_density := histv [phys x; phys y] [phys_edges x bx; phys_edges y by_] (phys_weights x w) true in
       (kw = 0 -> phys counts = true_density)
       /\ (acm x = Some true \/ acm y = Some true -> phys counts = scale (Rpower s kw) true_density)
       /\ (acm x = Some true -> phys ex = phys_edges x bx)
       /\ (acm x = Some false -> some_comoving [bins_op bx] = false -> acm y = Some true ->
           phys ex = scale (/ Rpower s j) (phys_edges x bx)).
Proof.
  intros s j k kw x y bx by_ w S X Y W.
  destruct (hist2d_density_ok s j k kw x y bx by_ w S X Y W) as (c & ex & ey & E & Gc & M & Pc & Gx & Gy & Px & Py).
  exists c, ex, ey. repeat (split; [assumption|]). cbn zeta. rewrite Pc, Px.
  set (fr := some_comoving [OArr x; OArr y; bins_op bx; bins_op by_; OPlain []; OPlain []; weights_op w]) in *.
  assert (Fx : acm x = Some true -> fr = true) by (intro H; unfold fr, some_comoving; cbn [existsb]; rewrite H; reflexivity).
  assert (Fy : acm y = Some true -> fr = true) by (intro H; unfold fr, some_comoving; cbn [existsb]; rewrite H; cbn [is_true]; rewrite orb_true_r; reflexivity).
  pose proof (ffac_pos s j (Some true)) as Pj.
  split; [|split; [|split]].
  - intros ->. unfold ffac. destruct (is_true (Some fr)); [rewrite Rpower_0r|]; apply scale_1.
  - intros [H|H]; [rewrite (Fx H)|rewrite (Fy H)]; reflexivity.
  - intro H. rewrite (Fx H). unfold some_comoving at 1. cbn [existsb]. rewrite H. cbn [is_true orb].
    replace (ffac s j (Some true) / ffac s j (Some true)) with 1 by (field; lra). apply scale_1.
  - intros H1 H2 H3. rewrite (Fy H3). unfold some_comoving at 1. unfold some_comoving in H2. cbn [existsb] in *.
    rewrite H1, H2. cbn [is_true orb]. unfold ffac in *. cbn [is_true] in *. f_equal. field. lra.
Qed.

(** Densities of [histogramdd] are right (up to the label of weights, as above) for bins given
    as numbers or as edges in the coordinates of the whole call; other edges are not converted. *)
Theorem C69_density_many_axes : forall s axes ks w kw, 0 < s -> axes <> [] ->
  Forall2 (good_axis s) axes ks -> good_weights s w kw ->
  let fr := some_comoving (map (fun sb : carr * bins => OArr (fst sb)) axes ++ [weights_op w]) in
  Forall (fun sb => bins_in fr (snd sb)) axes ->
  exists counts es, np_histdd_density axes w = Ok (OArr counts, es)
    /\ good s (kw - sum_of ks) counts /\ acm counts = Some fr
    /\ phys counts = scale (if fr then Rpower s kw else 1)
         (histv (map (fun sb => phys (fst sb)) axes) (map (fun sb => phys_edges (fst sb) (snd sb)) axes)
                (all_weights axes w) true).
Proof.
  intros s axes ks w kw S N H W fr B. destruct (histdd_density_ok s axes ks w kw S N H W B) as (c & es & E & G & M & P).
  exists c, es. split; [exact E|]. split; [exact G|]. split; [exact M|]. rewrite P. fold fr.
  destruct fr; reflexivity.
Qed.
Theorem C69_many_axes_bins_refuted : exists s x y counts es, 0 < s /\ good s 1 x /\ good s 1 y
  /\ np_histdd_density [(x, BEdges (OArr y))] None = Ok (OArr counts, es)
  /\ good s (-1) counts /\ nth 0 (histv [phys x] [phys y] [1] true) 0 <> nth 0 (phys counts) 0.
Proof.
  exists 2, (cmv 2 1 [1]), (phy 2 1 [1; 3 / 2; 3]).
  set (x := cmv 2 1 [1]). set (y := phy 2 1 [1; 3 / 2; 3]).
  assert (X : good 2 1 x) by apply good_cmv. assert (Y : good 2 1 y) by apply good_phy.
  assert (GL : forall e v b cp, e = -1 -> good 2 (-1) (mkarr v (lcf 2 e) (Some b) true cp)) by (intros e v b cp ->; apply good_label).
  assert (T : Rleb 1 1 = true) by (apply Rleb_true; lra).
  assert (T2 : Rltb 1 (3 / 2) = true) by (apply Rltb_true; lra).
  destruct (prepare_axis_ok 2 1 (x, BEdges (OArr y)) ltac:(lra) (conj X (gb_edges 2 1 x y Y))) as (px & Ex & _).
  unfold np_histdd_density. cbn [map all_ok]. rewrite Ex. cbn [bind].
  assert (C : Forall conv (arrs ([OArr x] ++ [OPlain []; OPlain []; OPlain []]))) by (eapply conv1; exact X).
  cbn [fst weights_op]. destruct (prepare_conv _ _ C) as (a & w & -> & Na & _).
  change (frame ([OArr x] ++ [OPlain []; OPlain []; OPlain []])) with (Some true) in *.
  cbn [bind k_args k_cfs k_kw map]. rewrite Na. cbn [map]. rewrite (cf_of _ _ _ X).
  change (h_multiply [lcf 2 1]) with (Ok (lcf 2 1)). cbn [bind]. unfold h_reciprocal. rewrite h_power_ok. cbn [bind].
  do 2 eexists. split; [lra|]. split; [exact X|]. split; [exact Y|]. split; [reflexivity|].
  unfold label. cbn [k_cm k_vt k_comp]. split; [apply (GL (1 * -1)); lra|].
  rewrite good_phys_label, nth_scale.
  assert (D : forall v e w, length w = 1%nat -> (2 <= length e)%nat -> in_cell (nth 0 e 0, nth 1 e 0, Nat.eqb 2 (length e)) v = false ->
    nth 0 (histv [[v]] [e] w true) 0 = 0).
  { intros v e [|a1 [|a2 w1]] Lw L E; try discriminate Lw. unfold histv. rewrite map2_map_in, grid1, !map_map.
    set (tot := sumR _). destruct e as [|e0 [|e1 t]]; cbn [length] in L; try lia.
    change (cells (e0 :: e1 :: t)) with ((e0, e1, match t with [] => true | _ => false end) :: cells (e1 :: t)).
    cbn [map nth]. cbn [nth length] in E. replace (match t with [] => true | _ => false end) with (Nat.eqb 2 (S (S (length t)))) by (destruct t; reflexivity).
    rewrite counted_cons, E. unfold counted. cbn [length seq map]. change (sumR []) with 0. unfold Rdiv. ring. }
  assert (Px : phys x = [2 * 1]) by (unfold x, phys, cmv, lab; cbn [acm acf avals map]; rewrite rp21; reflexivity).
  rewrite Px, D.
  - cbn [map2 in_frame op_comov snd nbins_of bins_op op_vals edges y phy avals weights_of count_points x cmv length repeat].
    change (comov x) with [1]. unfold histv. rewrite map2_map_in, grid1, !map_map. cbn [cells map nth].
    rewrite !counted_cons. unfold in_cell. rewrite T, T2.
    assert (T3 : Rleb (3 / 2) 1 = false) by (destruct (Rleb (3 / 2) 1) eqn:E; [apply Rleb_true in E; lra|reflexivity]).
    rewrite T3. cbn [andb]. unfold counted. cbn [length seq map]. change (sumR []) with 0.
    unfold volume. cbn [map width]. rewrite !prodR1.
    change (sumR [1 + 0; 0 + 0]) with (1 + 0 + (0 + 0 + 0)). unfold ffac. cbn [is_true].
    replace (1 * -1) with (- (1)) by lra. rewrite pow_neg, rp21. lra.
  - reflexivity.
  - cbn. lia.
  - unfold y, phys, phy, lab. cbn [acm acf avals map nth length Nat.eqb]. unfold in_cell.
    assert (T3 : Rltb (2 * 1) (3 / 2) = false) by (destruct (Rltb (2 * 1) (3 / 2)) eqn:E; [apply Rltb_true in E; lra|reflexivity]).
    rewrite T3, andb_false_r. reflexivity.
Qed.

(** [histogramdd] with density labels every axis of edges with the label of the first. *)
Theorem C69_many_axes_labels : forall axes w counts es x b rest, axes = (x, b) :: rest ->
  np_histdd_density axes w = Ok (counts, es) -> Forall (fun e => acf e = acf x) es.
Proof.
  intros axes w counts es x b rest -> H. unfold np_histdd_density in H.
  destruct (all_ok _) as [ps|]; [cbn [bind] in H|discriminate H].
  destruct (prepare_kw _ _ _) as [p|]; [cbn [bind] in H|discriminate H].
  destruct (h_multiply _) as [c|]; [cbn [bind] in H|discriminate H].
  destruct (h_reciprocal c) as [i|]; [cbn [bind] in H|discriminate H].
  match type of H with bind ?m _ = _ => destruct m as [cc|]; [cbn [bind] in H|discriminate H] end.
  injection H as _ <-.
  set (l := map2 _ (numbers (k_args p)) ((x, b) :: rest)). clearbody l. revert ps.
  induction l as [|e l IH]; intros [|q ps]; cbn [map2]; constructor; [reflexivity|apply IH].
Qed.

(** Bins given as edges: their label is not compared with that of the data. *)
Theorem C69_bin_labels_refuted : exists s x y e, 0 < s /\ good s 1 x /\ good s 2 y
  /\ np_histogram x (BEdges (OArr y)) false None = Ok (OPlain [1], e)
  /\ good s 1 e /\ histv [phys x] [phys y] [1] false <> [1].
Proof.
  exists 2, (cmv 2 1 [1]), (cmv 2 2 [1; 2]).
  assert (P : Rpower 2 2 = 4) by (replace 2 with (1 + 1) at 2 by lra; rewrite Rpower_plus, rp21; lra).
  eexists. split; [lra|]. split; [apply good_cmv|]. split; [apply good_cmv|]. split.
  - unfold np_histogram. cbn [bins_op weights_op].
    change (prepare_kw true [OArr (cmv 2 1 [1])] [OArr (cmv 2 2 [1; 2]); OPlain []; OPlain []; OPlain []])
      with (Ok (mkprepk [OArr (cmv 2 1 [1])] [OArr (cmv 2 2 [1; 2]); OPlain []; OPlain []; OPlain []]
                  [lab 2 1] [lab 2 2; None; None; None] (Some true) true CNone false)).
    cbn [bind cmv acf k_args k_kw op_vals avals nbins_of edges]. rewrite keep_ok. cbn [bind].
    change (h_reciprocal (lab 2 1)) with (Ok (lcf 2 (1 * -1))). cbn [bind]. f_equal. f_equal.
    unfold counts_label. cbn [orb]. f_equal. unfold histv. rewrite grid1. cbn [cells map].
    unfold weights_of. cbn [length repeat]. rewrite counted_cons. unfold counted. cbn [length seq map].
    unfold in_cell. replace (Rleb 1 1) with true by (symmetry; apply Rleb_true; lra).
    replace (Rleb 1 2) with true by (symmetry; apply Rleb_true; lra). cbn [andb].
    f_equal. cbn. lra.
  - split; [apply (good_label 2 1)|].
    unfold phys, cmv, lab. cbn [acm acf avals map]. rewrite rp21, P.
    unfold histv. rewrite grid1. cbn [cells map]. rewrite counted_cons. unfold counted. cbn [length seq map].
    unfold in_cell. destruct (Rleb (4 * 1) (2 * 1)) eqn:E; [apply Rleb_true in E; lra|]. cbn [andb].
    cbn. intro Q. injection Q as Q. lra.
Qed.

(** If all values are equal, numpy's bins reach half a unit to either side: half a
    unit of whatever coordinates the numbers are stored in. *)
Theorem C69_equal_values_refuted : exists s x c e, 0 < s /\ good s 1 x
  /\ np_histogram x (BNum 1) false None = Ok (c, e) /\ good s 1 e /\ phys e <> phys_edges x (BNum 1).
Proof.
  exists 2, (cmv 2 1 [0]). do 2 eexists. split; [lra|]. split; [apply good_cmv|]. split; [reflexivity|].
  split; [apply (good_label 2 1)|].
  unfold phys_edges, phys, label, cmv, lab. cbn [acm acf avals map k_cm k_vt k_comp phys_bins].
  rewrite rp21. unfold edges, minl, maxl. cbn [fold_left nbins_of op_vals avals].
  replace (Reqb (2 * 0) (2 * 0)) with true by (unfold Reqb; destruct (Req_EM_T (2 * 0) (2 * 0)); [reflexivity|congruence]).
  replace (Reqb 0 0) with true by (unfold Reqb; destruct (Req_EM_T 0 0); [reflexivity|congruence]).
  unfold even. cbn [seq map INR]. intro E. injection E as E _. lra.
Qed.

(** [histogram_bin_edges] with given edges never returns. *)
Theorem C69_bin_edges : forall s k a, 0 < s -> good s k a ->
  (forall n, spread (phys a) -> stands s k (np_bin_edges a (BNum n)) (Ok (phys_edges a (BNum n))))
  /\ (forall y, good s k y -> np_bin_edges a (BEdges (OArr y)) = Err UnboundLocal).
Proof.
  intros s k a S A. split.
  - intros n Sp. unfold np_bin_edges. cbn [bins_op].
    assert (C : Forall conv (arrs ([OArr a] ++ [OPlain []; OPlain []; OPlain []]))) by (eapply conv1; exact A).
    destruct (prepare_conv _ _ C) as (q & w & -> & _).
    change (frame ([OArr a] ++ [OPlain []; OPlain []; OPlain []])) with (frame [OArr a]).
    rewrite (frame1 s k a A). destruct (good_cm _ _ _ A) as (b & B). rewrite B. cbn [bind].
    rewrite keep_ok. cbn [bind]. rewrite (g_cf _ _ _ A). unfold label. cbn [k_cm k_vt k_comp stands].
    split; [apply good_label|]. fold (lcf s k). rewrite good_phys_label. unfold phys_edges. cbn [phys_bins op_vals].
    rewrite (avals_phys s k a b A B). symmetry. apply edges_scale_num; [apply ffac_pos|].
    apply (spread_scale (ffac s k (Some b))); [apply ffac_pos|]. rewrite <- (avals_phys s k a b A B). exact Sp.
  - intros y Y. unfold np_bin_edges. cbn [bins_op].
    destruct (prep_ok s [OArr a] [OArr y; OPlain []; OPlain []] [k] [k; 0; 0]) as (p & ->); [szs|szs|]. reflexivity.
Qed.

Example C69_example :
  good 2 1 (cmv 2 1 [0; 1; 3]) /\ good_bins 2 1 (cmv 2 1 [0; 1; 3]) (BNum 2)
  /\ good_weights 2 (Some (OArr (phy 2 3 [1; 1; 5]))) 3.
Proof.
  split; [apply good_cmv|]. split.
  - constructor. unfold phys, cmv, lab. cbn [acm acf avals map]. rewrite rp21. exists (2 * 0), (2 * 3).
    split; [left; reflexivity|]. split; [right; right; left; reflexivity|]. lra.
  - constructor. constructor. apply good_phy.
Qed.

Print Assumptions C64_functions.
Print Assumptions C64_products.
Print Assumptions C64_one_array.
Print Assumptions C64_several_arrays.
Print Assumptions C64_unequal_labels_rejected.
Print Assumptions C64_tuples_unlabelled.
Print Assumptions C65_variance.
Print Assumptions C65_variance_refuted.
Print Assumptions C65_fourier.
Print Assumptions C65_fourier_refuted.
Print Assumptions C65_einsum.
Print Assumptions C65_einsum_rejects.
Print Assumptions C65_rounding_refuted.
Print Assumptions C65_determinants.
Print Assumptions C65_determinant.
Print Assumptions C65_masked_product.
Print Assumptions C65_clip_keywords_ignored.
Print Assumptions C65_where_condition.
Print Assumptions C66_stacks.
Print Assumptions C66_concatenate.
Print Assumptions C66_labels_not_compared_refuted.
Print Assumptions C66_plain_first.
Print Assumptions C66_select.
Print Assumptions C66_select_default.
Print Assumptions C66_select_refuted.
Print Assumptions C66_select_values.
Print Assumptions C66_choose.
Print Assumptions C66_block.
Print Assumptions C66_block_unknown.
Print Assumptions C67_writing.
Print Assumptions C67_unequal_labels_rejected.
Print Assumptions C67_plain_numbers.
Print Assumptions C67_out.
Print Assumptions C67_out_refuted.
Print Assumptions C68_average.
Print Assumptions C68_average_plain_weights.
Print Assumptions C68_reductions.
Print Assumptions C68_meshgrid.
Print Assumptions C68_initial.
Print Assumptions C68_comparisons.
Print Assumptions C68_isclose_refuted.
Print Assumptions C68_unequal_labels_rejected.
Print Assumptions C68_interp_labels_refuted.
Print Assumptions C69_counts.
Print Assumptions C69_counts_many_axes.
Print Assumptions C69_counts_meaning.
Print Assumptions C69_density_meaning.
Print Assumptions C69_cells_meaning.
Print Assumptions C69_density.
Print Assumptions C69_density_two_axes.
Print Assumptions C69_density_many_axes.
Print Assumptions C69_many_axes_bins_refuted.
Print Assumptions C69_many_axes_labels.
Print Assumptions C69_bin_labels_refuted.
Print Assumptions C69_equal_values_refuted.
Print Assumptions C69_bin_edges.

(** Theorems about functions with several results, [sinc] and [savetxt] (C98). *)
From Coq Require Import String List ZArith Bool Reals Lra Lia.
From Verif Require Import Base CosmoModel CosmoSpec CosmoProofs FuncModel FuncSpec FuncProofs FuncMoreProofs
  FuncHistProofs FuncTheorems PartsModel PartsSpec.
Import ListNotations.
Open Scope R_scope.

Inductive right_labels (s : R) : list part -> list R -> list (option (option cf)) -> Prop :=
| rl_nil : right_labels s [] [] []
| rl_lab : forall h ps e es ls, right_labels s ps es ls ->
    right_labels s (Labelled h :: ps) (e :: es) (Some (lcf s e) :: ls)
| rl_asis : forall ps es ls, right_labels s ps es ls -> right_labels s (AsIs :: ps) (0 :: es) (None :: ls).

Lemma attach_denotes : forall s p ps es ls vs (b : bool), 0 < s -> right_labels s ps es ls ->
  length vs = length es -> k_cm p = Some b -> k_vt p = true ->
  all_denote s es (attach p ls vs) (if b then wscale s es vs else vs).
Proof.
  intros s p ps es ls vs b S RL. revert vs. induction RL as [|h ps e es ls RL IH|ps es ls RL IH]; intros vs L CM VT.
  - destruct vs; [|discriminate]. destruct b; constructor.
  - destruct vs as [|v vs]; [discriminate|]. injection L as L. specialize (IH vs L CM VT).
    cbn [attach wscale]. assert (G : good s e (label v (lcf s e) p)).
    { unfold label. constructor; cbn; [reflexivity|rewrite CM; discriminate|exact VT]. }
    destruct b; constructor; try exact IH; (split; [constructor; exact G|]); unfold label; cbn [op_phys]; unfold phys, lcf; cbn; rewrite CM; reflexivity.
  - destruct vs as [|v vs]; [discriminate|]. injection L as L. specialize (IH vs L CM VT).
    cbn [attach wscale]. destruct b; constructor; try exact IH; (split; [constructor|]); cbn [op_phys]; [|reflexivity].
    now rewrite Rpower_0r, scale_1.
Qed.

Lemma parts_general : forall s f ps args kw aks kks es ls, 0 < s ->
  Forall2 (sized s) args aks -> Forall2 (sized s) kw kks ->
  part_labels ps (map op_cf args) (map op_cf kw) = Ok ls -> right_labels s ps es ls ->
  frame (args ++ kw) <> None -> parts_scale f aks kks es ->
  parts_stand s es (call_parts f ps args kw) (f (map op_phys args) (map op_phys kw)).
Proof.
  intros s f ps args kw aks kks es ls S Ha Hk L RL Fr (Hf & Hn).
  assert (C : Forall conv (arrs (args ++ kw))).
  { rewrite arrs_app. apply Forall_app. split; eapply sized_conv; eassumption. }
  destruct (prepare_conv args kw C) as (args' & kw' & P & Na & Nk & _).
  unfold call_parts. rewrite P. cbn [bind k_cfs k_kwcfs k_args k_kw]. rewrite L. cbn [bind].
  rewrite Na, Nk. destruct (frame (args ++ kw)) as [[|]|]; [| |congruence].
  - change (map (in_frame (Some true)) args) with (map op_comov args).
    change (map (in_frame (Some true)) kw) with (map op_comov kw).
    rewrite (wscale_comov s args aks Ha), (wscale_comov s kw kks Hk).
    rewrite Hf; [|exact S|rewrite map_length; eapply F2_length; eassumption|rewrite map_length; eapply F2_length; eassumption].
    destruct (f (map op_comov args) (map op_comov kw)) as [vs|e] eqn:E; cbn [bind pscale parts_stand]; [|reflexivity].
    exact (attach_denotes s (mkprepk _ _ _ _ (Some true) true _ _) ps es ls vs true S RL (Hn _ _ _ E) eq_refl eq_refl).
  - change (map (in_frame (Some false)) args) with (map op_phys args).
    change (map (in_frame (Some false)) kw) with (map op_phys kw).
    destruct (f (map op_phys args) (map op_phys kw)) as [vs|e] eqn:E; cbn [bind pscale parts_stand]; [|reflexivity].
    exact (attach_denotes s (mkprepk _ _ _ _ (Some false) true _ _) ps es ls vs false S RL (Hn _ _ _ E) eq_refl eq_refl).
Qed.

Lemma plain_kw : forall s kw, Forall (fun o => exists v, o = OPlain v) kw -> Forall2 (sized s) kw (repeat 0 (length kw)).
Proof.
  intros s kw H. induction H as [|o kw (v & ->) H IH]; cbn [length repeat]; constructor; [constructor|exact IH].
Qed.

(** Least squares and the points of an interval with their distance: every part stands
    for the part computed from physical values, with the exponent it should have; the
    rank is a plain number.  Keywords are plain. *)
Theorem C98_two_arrays : forall s j k n es f a b kw, 0 < s -> good s j a -> good s k b ->
  Forall (fun o => exists v, o = OPlain v) kw -> exponents j k n es ->
  parts_scale f [j; k] (repeat 0 (length kw)) es ->
  parts_stand s es (np_parts n f [OArr a; OArr b] kw) (f [phys a; phys b] (map op_phys kw)).
Proof.
  intros s j k n es f a b kw S A B K E H. unfold np_parts.
  assert (F : frame ([OArr a; OArr b] ++ kw) <> None) by discriminate.
  destruct E as [|EQ].
  - apply (parts_general s f (parts_of Plstsq) [OArr a; OArr b] kw [j; k] (repeat 0 (length kw)) _
             [Some (lcf s (k - j)); Some (lcf s (2 * k)); None; Some (lcf s j)] S).
    + szs.
    + now apply plain_kw.
    + cbn [map part_labels parts_of two first]. rewrite (cf_of _ _ _ A), (cf_of _ _ _ B), h_div_ok. cbn [bind].
      unfold h_square. rewrite h_power_ok. cbn [bind]. rewrite keep_ok. cbn [bind].
      replace (lcf s (k * 2)) with (lcf s (2 * k)) by (apply lcf_eq; ring). reflexivity.
    + repeat constructor.
    + exact F.
    + exact H.
  - subst j. apply (parts_general s f (parts_of Plinspace_step) [OArr a; OArr b] kw [k; k] (repeat 0 (length kw)) _
             [Some (lcf s k); Some (lcf s k)] S).
    + szs.
    + now apply plain_kw.
    + cbn [map part_labels parts_of two first]. rewrite (cf_of _ _ _ A), (cf_of _ _ _ B), h_preserve2_same. reflexivity.
    + repeat constructor.
    + exact F.
    + exact H.
Qed.

(** Eigenvalues have the exponent of the matrix, eigenvectors are plain numbers. *)
Theorem C98_eigenvalues : forall s k n f a kw, 0 < s -> good s k a -> n = Peig \/ n = Peigh ->
  Forall (fun o => exists v, o = OPlain v) kw ->
  parts_scale f [k] (repeat 0 (length kw)) [k; 0] ->
  parts_stand s [k; 0] (np_parts n f [OArr a] kw) (f [phys a] (map op_phys kw)).
Proof.
  intros s k n f a kw S A N K H. unfold np_parts.
  replace (parts_of n) with (parts_of Peig) by now destruct N as [->| ->].
  apply (parts_general s f (parts_of Peig) [OArr a] kw [k] (repeat 0 (length kw)) _ [Some (lcf s k); None] S).
  - szs.
  - now apply plain_kw.
  - cbn [map part_labels parts_of first]. rewrite (cf_of _ _ _ A), keep_ok. reflexivity.
  - repeat constructor.
  - discriminate.
  - exact H.
Qed.

(** The numbers of interval ends whose labels differ are not mixed. *)
Theorem C98_unequal_labels_rejected : forall s j k f a b kw, good s j a -> good s k b ->
  Forall (fun o => exists v, o = OPlain v) kw -> isclose (Rpower s j) (Rpower s k) = false ->
  np_parts Plinspace_step f [OArr a; OArr b] kw = Err ValueError.
Proof.
  intros s j k f a b kw A B K NE. unfold np_parts, call_parts.
  assert (C : Forall conv (arrs ([OArr a; OArr b] ++ kw))).
  { rewrite arrs_app. apply Forall_app. split; [exact (conv2 s j k a b A B)|].
    exact (sized_conv s kw (repeat 0 (length kw)) (plain_kw s kw K)). }
  destruct (prepare_conv [OArr a; OArr b] kw C) as (a' & w & -> & _). cbn [bind k_cfs k_kwcfs map parts_of part_labels two].
  rewrite (cf_of _ _ _ A), (cf_of _ _ _ B).
  assert (R : h_preserve2 (lcf s j) (lcf s k) = Err ValueError).
  { unfold h_preserve2, lcf, cf_eq, a_factor. cbn [cexpr cscale]. rewrite NE, andb_false_r. reflexivity. }
  rewrite R. reflexivity.
Qed.

(** * Functions of this kind *)
Lemma map2_scale : forall s t a b, map2 Rmult (scale s a) (scale t b) = scale (s * t) (map2 Rmult a b).
Proof.
  intros s t a. unfold scale. induction a as [|x a IH]; intros [|y b]; cbn [map map2]; try reflexivity.
  rewrite IH. f_equal. ring.
Qed.
Lemma sum_scale : forall c v, sum_of (scale c v) = c * sum_of v.
Proof. intros c v. unfold sum_of, scale. induction v as [|x v IH]; cbn; [ring|rewrite IH; ring]. Qed.
Lemma Rpower_pos : forall t k, 0 < Rpower t k.
Proof. intros. unfold Rpower. apply exp_pos. Qed.
Lemma scale1 : forall c x, scale c [x] = [c * x].
Proof. reflexivity. Qed.

Theorem C98_lstsq_scales : forall j k m, parts_scale v_lstsq1 [j; k] (repeat 0 m) [k - j; 2 * k; 0; j].
Proof.
  intros j k m. split.
  - intros t avs kvs T LA _. destruct avs as [|a [|b [|c avs]]]; try discriminate LA.
    cbn [wscale]. unfold v_lstsq1. unfold scale at 1 2. rewrite !map_length. fold (scale (Rpower t j) a). fold (scale (Rpower t k) b).
    rewrite !map2_scale, !sum_scale. pose proof (Rpower_pos t j) as PJ. pose proof (Rpower_pos t k) as PK.
    set (aa := sum_of (map2 Rmult a a)). set (ab := sum_of (map2 Rmult a b)). set (bb := sum_of (map2 Rmult b b)).
    destruct (Nat.eqb (length a) (length b)); cbn [negb]; [|reflexivity].
    assert (E0 : Rpower t 0 = 1) by apply Rpower_0r.
    assert (EM : Rpower t (k - j) = Rpower t k / Rpower t j).
    { unfold Rminus. rewrite Rpower_plus, Rpower_Ropp. reflexivity. }
    assert (E2 : Rpower t (2 * k) = Rpower t k * Rpower t k).
    { replace (2 * k) with (k + k) by ring. apply Rpower_plus. }
    destruct (Req_EM_T (Rpower t j * Rpower t j * aa) 0) as [Z|NZ]; destruct (Req_EM_T aa 0) as [Z'|NZ'].
    + cbn [pscale wscale]. rewrite !scale1. cbn [scale map]. rewrite !Rmult_0_r. reflexivity.
    + exfalso. apply NZ'. apply Rmult_integral in Z. destruct Z as [Z|Z]; [|exact Z].
      apply Rmult_integral in Z. destruct Z; lra.
    + exfalso. apply NZ. rewrite Z'. ring.
    + cbn [pscale wscale]. rewrite !scale1, E0, EM, E2.
      assert (SQ : sqrt (Rpower t j * Rpower t j * aa) = Rpower t j * sqrt aa).
      { rewrite sqrt_mult_alt by nra. rewrite sqrt_square by lra. reflexivity. }
      assert (PJ' : Rpower t j <> 0) by lra.
      replace (Rpower t j * Rpower t k * ab / (Rpower t j * Rpower t j * aa)) with (Rpower t k / Rpower t j * (ab / aa))
        by (field; split; assumption).
      replace (Rpower t k * Rpower t k * bb - Rpower t j * Rpower t k * ab * (Rpower t j * Rpower t k * ab) / (Rpower t j * Rpower t j * aa))
        with (Rpower t k * Rpower t k * (bb - ab * ab / aa)) by (field; split; assumption).
      rewrite SQ, Rmult_1_l. reflexivity.
  - intros avs kvs vs E. unfold v_lstsq1 in E. destruct avs as [|a [|b [|c avs]]]; try discriminate E.
    destruct (negb _); [discriminate|]. destruct (Req_EM_T _ 0); injection E as <-; reflexivity.
Qed.
Theorem C98_eig_scales : forall k m, parts_scale v_eig2 [k] (repeat 0 m) [k; 0].
Proof.
  intros k m. split.
  - intros t avs kvs T LA _. destruct avs as [|a [|b avs]]; try discriminate LA. cbn [wscale]. unfold v_eig2.
    pose proof (Rpower_pos t k) as P. destruct a as [|a [|b [|c [|d [|e a0]]]]]; try reflexivity. cbn [scale map].
    assert (Z : forall x, (if Req_EM_T (Rpower t k * x) 0 then true else false) = if Req_EM_T x 0 then true else false).
    { intros x. destruct (Req_EM_T (Rpower t k * x) 0) as [Q|Q]; destruct (Req_EM_T x 0) as [Q'|Q']; try reflexivity; exfalso.
      - apply Rmult_integral in Q. destruct Q; lra.
      - apply Q. rewrite Q'. ring. }
    pose proof (Z b) as Zb. pose proof (Z c) as Zc.
    destruct (Req_EM_T (Rpower t k * b) 0); destruct (Req_EM_T b 0); try discriminate Zb; [|reflexivity].
    destruct (Req_EM_T (Rpower t k * c) 0); destruct (Req_EM_T c 0); try discriminate Zc; [|reflexivity].
    cbn [pscale wscale scale map]. rewrite Rpower_0r. do 3 f_equal. f_equal; [ring|]. f_equal; [ring|]. f_equal; [ring|]. f_equal; ring.
  - intros avs kvs vs E. unfold v_eig2 in E. destruct avs as [|[|a [|b [|c [|d [|e a0]]]]] [|b0 avs]]; try discriminate E.
    destruct (Req_EM_T b 0); [|discriminate]. destruct (Req_EM_T c 0); [|discriminate]. injection E as <-. reflexivity.
Qed.
Theorem C98_linspace_scales : forall n k m, parts_scale (v_linspace_step n) [k; k] (repeat 0 m) [k; k].
Proof.
  intros n k m. split.
  - intros t avs kvs T LA _. destruct avs as [|a [|b [|c avs]]]; try discriminate LA. cbn [wscale]. unfold v_linspace_step.
    destruct a as [|a [|a1 a2]]; [reflexivity| |].
    + destruct b as [|b [|b1 b2]]; [reflexivity| |reflexivity]. cbn [scale map pscale wscale]. unfold scale. rewrite map_map. cbn [map].
      replace ((Rpower t k * b - Rpower t k * a) / INR (n - 1)) with (Rpower t k * ((b - a) / INR (n - 1))) by (unfold Rdiv; ring).
      f_equal. f_equal. apply map_ext. intros i. ring.
    + reflexivity.
  - intros avs kvs vs E. unfold v_linspace_step in E. destruct avs as [|[|a [|a1 a2]] [|[|b [|b1 b2]] [|c avs]]]; try discriminate E.
    injection E as <-. reflexivity.
Qed.

(** * [sinc] *)

(** The result depends on the coordinates: of a length of one half in physical
    coordinates and the same length in comoving ones at scale factor one half, [sinc]
    is [2 / pi] and zero. *)
Theorem C98_sinc_refuted : exists s k x y, 0 < s /\ good s k x /\ good s k y /\ phys x = phys y
  /\ np_sinc (OArr x) = [2 / PI] /\ np_sinc (OArr y) = [0].
Proof.
  exists (1 / 2), 1, (phy (1 / 2) 1 [1 / 2]), (cmv (1 / 2) 1 [1]).
  split; [lra|]. split; [apply good_phy|]. split; [apply good_cmv|].
  pose proof PI_RGT_0 as P. split; [|split].
  - unfold phys, phy, cmv, lab. cbn. rewrite Rpower_1 by lra. f_equal. lra.
  - unfold np_sinc, sincR, phy. cbn [op_vals avals map]. destruct (Req_EM_T (1 / 2) 0); [lra|]. f_equal.
    replace (PI * (1 / 2)) with (PI / 2) by field. rewrite sin_PI2. field. lra.
  - unfold np_sinc, sincR, cmv. cbn [op_vals avals map]. destruct (Req_EM_T 1 0); [lra|]. f_equal.
    rewrite Rmult_1_r, sin_PI. unfold Rdiv. ring.
Qed.
(** For labels without scaling it does not. *)
Theorem C98_sinc : forall s x, good s 0 x -> np_sinc (OArr x) = map sincR (phys x).
Proof.
  intros s [v c cm vt cp] [H1 H2 H3]. cbn in *. subst. unfold np_sinc, phys. cbn [op_vals avals acm acf].
  destruct cm as [[|]|]; [|reflexivity|congruence]. unfold lcf. cbn. rewrite Rpower_0r, map_map.
  apply map_ext. intros u. now rewrite Rmult_1_l.
Qed.

(** * [savetxt] *)

(** The file has the stored numbers, one text each, for every array: nothing tells the
    coordinates, the exponent or the scale factor. *)
(** What [sinc] computes from the stored numbers. *)
Theorem C98_sinc_numbers : forall x v, In v (combine (op_vals x) (np_sinc x)) ->
  (fst v = 0 -> snd v = 1) /\ (fst v <> 0 -> snd v * (PI * fst v) = sin (PI * fst v)).
Proof.
  intros x [a b] H. unfold np_sinc in H. cbn [fst snd].
  assert (E : b = sincR a).
  { revert H. generalize (op_vals x). induction l as [|c l IH]; cbn; [intros []|]. intros [H|H]; [congruence|auto]. }
  subst b. unfold sincR. destruct (Req_EM_T a 0) as [->|N]; split; intros; try lra. field. split; [assumption|]. apply PI_neq0.
Qed.

Theorem C98_savetxt : forall text x, np_savetxt text x = Ok (map text (op_vals x)).
Proof.
  intros text [x|v]; unfold np_savetxt, prepare_kw; cbn; [|reflexivity].
  destruct (acm x) as [[|]|]; reflexivity.
Qed.
Theorem C98_savetxt_forgets_refuted : exists s k x y, 0 < s /\ good s k x /\ good s k y /\ phys x <> phys y
  /\ forall text, np_savetxt text (OArr x) = np_savetxt text (OArr y).
Proof.
  exists 2, 1, (phy 2 1 [1]), (cmv 2 1 [1]). split; [lra|]. split; [apply good_phy|]. split; [apply good_cmv|]. split.
  - unfold phys, phy, cmv, lab. cbn. rewrite rp21. intros E. injection E as E. lra.
  - intros text. rewrite !C98_savetxt. reflexivity.
Qed.

(** A comoving column and a physical right-hand side. *)
Example C98_example :
  good 2 1 (cmv 2 1 [1; 1]) /\ good 2 2 (phy 2 2 [2; 4])
  /\ exponents 1 2 Plstsq [2 - 1; 2 * 2; 0; 1]
  /\ v_lstsq1 [phys (cmv 2 1 [1; 1]); phys (phy 2 2 [2; 4])] []
     = Ok [[12 / 8]; [20 - 12 * 12 / 8]; [1]; [sqrt 8]].
Proof.
  split; [apply good_cmv|]. split; [apply good_phy|]. split; [constructor|].
  unfold phys, cmv, phy, lab. cbn [acm acf avals map]. unfold v_lstsq1. cbn. rewrite !rp21.
  destruct (Req_EM_T _ 0) as [Z|_]; [exfalso; lra|]. f_equal.
  replace (2 * 1 * (2 * 1) + (2 * 1 * (2 * 1) + 0)) with 8 by ring.
  f_equal; [f_equal; lra|]. f_equal. f_equal. lra.
Qed.

Print Assumptions C98_two_arrays.
Print Assumptions C98_eigenvalues.
Print Assumptions C98_unequal_labels_rejected.
Print Assumptions C98_lstsq_scales.
Print Assumptions C98_eig_scales.
Print Assumptions C98_linspace_scales.
Print Assumptions C98_sinc_refuted.
Print Assumptions C98_sinc.
Print Assumptions C98_savetxt.
Print Assumptions C98_savetxt_forgets_refuted.
Print Assumptions C98_sinc_numbers.

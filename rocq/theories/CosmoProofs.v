(** Proofs about scale-factor labels, conversions and arithmetic (one operation). *)
From Coq Require Import String List ZArith Bool Reals Lra Lia.
From Verif Require Import Base CosmoModel CosmoSpec.
Import ListNotations.
Open Scope R_scope.

(** * Decisions *)
Lemma Reqb_true : forall x y, Reqb x y = true <-> x = y.
Proof. intros; unfold Reqb; destruct (Req_EM_T x y); split; congruence. Qed.
Lemma Reqb_refl : forall x, Reqb x x = true.
Proof. intros; apply Reqb_true; reflexivity. Qed.
Lemma Reqb_false : forall x y, Reqb x y = false <-> x <> y.
Proof. intros; unfold Reqb; destruct (Req_EM_T x y); split; congruence. Qed.
Lemma Rleb_true : forall x y, Rleb x y = true <-> x <= y.
Proof. intros; unfold Rleb; destruct (Rle_dec x y); split; intros; try assumption; try congruence; contradiction. Qed.
Lemma Rleb_false : forall x y, Rleb x y = false <-> y < x.
Proof. intros; unfold Rleb; destruct (Rle_dec x y); split; intros; try congruence; lra. Qed.
Lemma Rltb_true : forall x y, Rltb x y = true <-> x < y.
Proof. intros; unfold Rltb; destruct (Rlt_dec x y); split; intros; try assumption; try congruence; contradiction. Qed.

Lemma oreqb_true : forall x y, oreqb x y = true <-> x = y.
Proof.
  intros [x|] [y|]; cbn; split; intro H; try congruence; try discriminate.
  - apply Reqb_true in H; congruence.
  - inversion H; apply Reqb_refl.
Qed.
Lemma oreqb_refl : forall x, oreqb x x = true.
Proof. intros; apply oreqb_true; reflexivity. Qed.
Lemma oreqb_sym : forall x y, oreqb x y = oreqb y x.
Proof.
  intros x y. destruct (oreqb x y) eqn:E.
  - apply oreqb_true in E; subst; symmetry; apply oreqb_refl.
  - destruct (oreqb y x) eqn:F; [ | reflexivity ].
    apply oreqb_true in F; subst. rewrite oreqb_refl in E; discriminate.
Qed.

Lemma Rpower_pos : forall s k, 0 < Rpower s k.
Proof. intros; unfold Rpower; apply exp_pos. Qed.
Lemma Rpower_nz : forall s k, Rpower s k <> 0.
Proof. intros; pose proof (Rpower_pos s k); lra. Qed.

(** * Labels *)
Lemma isclose_refl : forall x, isclose x x = true.
Proof.
  intros; unfold isclose; apply Rleb_true.
  rewrite Rminus_diag_eq, Rabs_R0 by reflexivity.
  pose proof (Rabs_pos x); lra.
Qed.

Lemma cf_eq_refl : forall c, cf_eq c c = true.
Proof.
  intros c; unfold cf_eq. rewrite oreqb_refl.
  destruct (a_factor c); cbn; [ apply isclose_refl | reflexivity ].
Qed.

Lemma cf_eq_same : forall s k, cf_eq (mkcf (Some k) (Some s)) (mkcf (Some k) (Some s)) = true.
Proof. intros; apply cf_eq_refl. Qed.

(** * Conversions *)
Lemma map_mul_div : forall f l, f <> 0 -> map (fun v => v / f) (map (fun v => v * f) l) = l.
Proof.
  intros f l Hf; rewrite map_map; rewrite <- (map_id l) at 2.
  apply map_ext; intro v; field; assumption.
Qed.
Lemma map_div_mul : forall f l, f <> 0 -> map (fun v => v * f) (map (fun v => v / f) l) = l.
Proof.
  intros f l Hf; rewrite map_map; rewrite <- (map_id l) at 2.
  apply map_ext; intro v; field; assumption.
Qed.

Definition set_cm (x : carr) (b : bool) (v : list R) : carr :=
  mkarr v (acf x) (Some b) (avt x) (acomp x).

Lemma conv_c_good : forall s k x, good s k x ->
  convert_to_comoving x = Ok (set_cm x true (comov x)).
Proof.
  intros s k [v c cm vt cp] [H1 H2 H3]; cbn in *; subst.
  unfold convert_to_comoving, comov, set_cm; cbn.
  destruct cm as [[|]|]; cbn; try reflexivity. congruence.
Qed.

Lemma conv_p_good : forall s k x, good s k x ->
  convert_to_physical x = Ok (set_cm x false (phys x)).
Proof.
  intros s k [v c cm vt cp] [H1 H2 H3]; cbn in *; subst.
  unfold convert_to_physical, phys, set_cm; cbn.
  destruct cm as [[|]|]; cbn; try reflexivity; try congruence.
  do 2 f_equal. apply map_ext; intros; apply Rmult_comm.
Qed.

Lemma to_c_good : forall s k x, good s k x -> to_comoving x = Ok (set_cm x true (comov x)).
Proof.
  intros s k x G; unfold to_comoving; rewrite (g_vt _ _ _ G); cbn.
  apply (conv_c_good s k x G).
Qed.
Lemma to_p_good : forall s k x, good s k x -> to_physical x = Ok (set_cm x false (phys x)).
Proof.
  intros s k x G; unfold to_physical; rewrite (g_vt _ _ _ G); cbn.
  apply (conv_p_good s k x G).
Qed.

Lemma good_set_cm : forall s k x b v, good s k x -> good s k (set_cm x b v).
Proof. intros s k x b v [H1 H2 H3]; constructor; unfold set_cm; cbn; (assumption || discriminate). Qed.

Lemma phys_set_c : forall s k x, good s k x -> phys (set_cm x true (comov x)) = phys x.
Proof.
  intros s k [v c cm vt cp] [H1 H2 H3]; cbn in *; subst.
  unfold phys, comov, set_cm; cbn.
  destruct cm as [[|]|]; cbn; try reflexivity; try congruence.
  rewrite map_map. rewrite <- (map_id v) at 2. apply map_ext; intro w.
  field. apply Rpower_nz.
Qed.
Lemma phys_set_p : forall x, phys (set_cm x false (phys x)) = phys x.
Proof. intros x; unfold phys at 1, set_cm; cbn. reflexivity. Qed.
Lemma comov_set_p : forall s k x, good s k x -> comov (set_cm x false (phys x)) = comov x.
Proof.
  intros s k [v c cm vt cp] [H1 H2 H3]; cbn in *; subst.
  unfold phys, comov, set_cm; cbn.
  destruct cm as [[|]|]; cbn; try reflexivity; try congruence.
  rewrite map_map. rewrite <- (map_id v) at 2. apply map_ext; intro w.
  field. apply Rpower_nz.
Qed.
Lemma comov_set_c : forall x, comov (set_cm x true (comov x)) = comov x.
Proof. intros x; unfold comov at 1, set_cm; cbn. reflexivity. Qed.

Lemma vals_by_cm : forall s k x b, good s k x -> acm x = Some b ->
  phys x = (if b then map (fun v => Rpower s k * v) (avals x) else avals x).
Proof.
  intros s k [v c cm vt cp] b [H1 H2 H3] E; cbn in *; subst. unfold phys; cbn.
  destruct b; reflexivity.
Qed.

(** * Broadcasting homogeneous functions *)
Lemma map2_map : forall A B C D E (f : C -> D -> E) (g : A -> C) (h : B -> D) xs ys,
  map2 f (map g xs) (map h ys) = map2 (fun x y => f (g x) (h y)) xs ys.
Proof. induction xs; destruct ys; cbn; congruence. Qed.
Lemma map_map2 : forall A B C D (f : A -> B -> C) (g : C -> D) xs ys,
  map g (map2 f xs ys) = map2 (fun x y => g (f x y)) xs ys.
Proof. induction xs; destruct ys; cbn; congruence. Qed.
Lemma map2_ext : forall A B C (f g : A -> B -> C) xs ys,
  (forall x y, f x y = g x y) -> map2 f xs ys = map2 g xs ys.
Proof. induction xs; destruct ys; cbn; intros E; f_equal; auto. Qed.

Definition rmap {A B} (g : A -> B) (r : res A) : res B :=
  match r with Ok a => Ok (g a) | Err e => Err e end.

Lemma broadcast_map : forall C D (f : R -> R -> C) (f' : R -> R -> D) (g h : R -> R) (u : C -> D) xs ys,
  (forall x y, f' (g x) (h y) = u (f x y)) ->
  broadcast f' (map g xs) (map h ys) = rmap (map u) (broadcast f xs ys).
Proof.
  intros C D f f' g h u xs ys Hf. unfold broadcast.
  rewrite !map_length.
  destruct (Nat.eqb (length xs) (length ys)) eqn:E; cbn.
  - rewrite map2_map, map_map2. f_equal. apply map2_ext; assumption.
  - destruct xs as [|x [|x' xs]]; destruct ys as [|y [|y' ys]]; cbn [map]; try reflexivity;
      try discriminate E; cbn [rmap]; f_equal; cbn [map]; rewrite ?Hf, ?map_map; f_equal;
      try reflexivity; f_equal; try reflexivity; apply map_ext; intros; apply Hf.
Qed.

(** * One operation *)
Definition lcf (s k : R) : option cf := Some (mkcf (Some k) (Some s)).

Lemma prepare_good2 : forall s j k x y, good s j x -> good s k y ->
  exists x' y' b cp,
    prepare true [OArr x; OArr y]
      = Ok (mkprep [OArr x'; OArr y'] [lcf s j; lcf s k] (Some b) true cp)
    /\ good s j x' /\ good s k y' /\ acm x' = Some b /\ acm y' = Some b
    /\ phys x' = phys x /\ phys y' = phys y.
Proof.
  intros s j k x y Gx Gy.
  pose proof (to_c_good s j x Gx) as Cx. pose proof (to_c_good s k y Gy) as Cy.
  pose proof (g_cf _ _ _ Gx) as Fx. pose proof (g_cf _ _ _ Gy) as Fy.
  pose proof (g_vt _ _ _ Gx) as Vx. pose proof (g_vt _ _ _ Gy) as Vy.
  pose proof (g_cm _ _ _ Gx) as Mx. pose proof (g_cm _ _ _ Gy) as My.
  unfold prepare; cbn [map op_cm op_cf op_vt filter fst snd forallb existsb].
  rewrite Vx, Vy, Fx, Fy.
  destruct (acm x) as [[|]|] eqn:Ex; [ | | congruence ];
    destruct (acm y) as [[|]|] eqn:Ey; [ | | congruence | | | congruence ];
    cbn [is_true is_false is_none andb orb negb forallb existsb coerce map];
    rewrite ?Ex, ?Ey; cbn [is_true all_ok]; rewrite ?Cx, ?Cy; cbn [bind all_ok].
  - exists x, y, true. eexists. split; [ reflexivity | ]. auto 10.
  - exists x, (set_cm y true (comov y)), true. eexists. split; [ reflexivity | ].
    split; [ exact Gx | ]. split; [ apply good_set_cm; exact Gy | ].
    split; [ exact Ex | ]. split; [ reflexivity | ]. split; [ reflexivity | ].
    apply (phys_set_c s k); exact Gy.
  - exists (set_cm x true (comov x)), y, true. eexists. split; [ reflexivity | ].
    split; [ apply good_set_cm; exact Gx | ]. split; [ exact Gy | ].
    split; [ reflexivity | ]. split; [ exact Ey | ]. split; [ | reflexivity ].
    apply (phys_set_c s j); exact Gx.
  - exists x, y, false. eexists. split; [ reflexivity | ]. auto 10.
Qed.

Lemma prepare_good1 : forall s k x, good s k x ->
  exists b cp, prepare true [OArr x] = Ok (mkprep [OArr x] [lcf s k] (Some b) true cp)
    /\ acm x = Some b.
Proof.
  intros s k x G.
  pose proof (g_cf _ _ _ G) as F. pose proof (g_vt _ _ _ G) as V. pose proof (g_cm _ _ _ G) as M.
  unfold prepare; cbn [map op_cm op_cf op_vt filter fst snd forallb existsb].
  rewrite V, F. destruct (acm x) as [[|]|] eqn:E; [ | | congruence ];
    cbn [is_true is_false is_none andb orb negb forallb existsb]; eexists; eexists; split; reflexivity.
Qed.

Lemma prepare_good_l : forall s k x v, good s k x ->
  exists b cp, prepare true [OArr x; OPlain v]
      = Ok (mkprep [OArr x; OPlain v] [lcf s k; None] (Some b) true cp)
    /\ acm x = Some b.
Proof.
  intros s k x v G.
  pose proof (g_cf _ _ _ G) as F. pose proof (g_vt _ _ _ G) as V. pose proof (g_cm _ _ _ G) as M.
  unfold prepare; cbn [map op_cm op_cf op_vt filter fst snd forallb existsb].
  rewrite V, F. destruct (acm x) as [[|]|] eqn:E; [ | | congruence ];
    cbn [is_true is_false is_none andb orb negb forallb existsb]; eexists; eexists; split; reflexivity.
Qed.

Lemma prepare_good_r : forall s k x v, good s k x ->
  exists b cp, prepare true [OPlain v; OArr x]
      = Ok (mkprep [OPlain v; OArr x] [None; lcf s k] (Some b) true cp)
    /\ acm x = Some b.
Proof.
  intros s k x v G.
  pose proof (g_cf _ _ _ G) as F. pose proof (g_vt _ _ _ G) as V. pose proof (g_cm _ _ _ G) as M.
  unfold prepare; cbn [map op_cm op_cf op_vt filter fst snd forallb existsb].
  rewrite V, F. destruct (acm x) as [[|]|] eqn:E; [ | | congruence ];
    cbn [is_true is_false is_none andb orb negb forallb existsb]; eexists; eexists; split; reflexivity.
Qed.

(** The result of an operation stands for [v]. *)
Definition gives (s m : R) (r : res carr) (v : res (list R)) : Prop :=
  match r, v with
  | Ok x, Ok w => good s m x /\ phys x = w
  | Err e, Err f => e = f
  | _, _ => False
  end.

Lemma gives_intro : forall (s m : R) (vals : list R) (b : bool) (cp : comp) (w : list R),
  w = (if b then map (fun v => Rpower s m * v) vals else vals) ->
  gives s m (Ok (mkarr vals (lcf s m) (Some b) true cp)) (Ok w).
Proof.
  intros s m vals b cp w E; split.
  - constructor; cbn; (reflexivity || discriminate).
  - rewrite E. unfold phys; cbn. destruct b; reflexivity.
Qed.

Lemma ufunc2_gives : forall s j k m (f : R -> R -> R) h x y,
  good s j x -> good s k y ->
  h (lcf s j) (lcf s k) = Ok (lcf s m) ->
  (forall u v, f (Rpower s j * u) (Rpower s k * v) = Rpower s m * f u v) ->
  gives s m (ufunc2 f h (OArr x) (OArr y)) (broadcast f (phys x) (phys y)).
Proof.
  intros s j k m f h x y Gx Gy Hh Hf.
  destruct (prepare_good2 s j k x y Gx Gy) as (x' & y' & b & cp & P & Gx' & Gy' & Bx & By & Px & Py).
  unfold ufunc2. rewrite P. cbn [bind op_cf p_args p_cm p_vt p_comp].
  rewrite (g_cf _ _ _ Gx), (g_cf _ _ _ Gy). fold (lcf s j). fold (lcf s k).
  rewrite Hh. cbn [bind op_vals].
  rewrite <- Px, <- Py, (vals_by_cm s j x' b Gx' Bx), (vals_by_cm s k y' b Gy' By).
  destruct b.
  - rewrite (broadcast_map R R f f _ _ (fun v => Rpower s m * v) _ _ Hf).
    destruct (broadcast f (avals x') (avals y')); cbn [rmap bind]; [ | reflexivity ].
    apply gives_intro; reflexivity.
  - destruct (broadcast f (avals x') (avals y')); cbn [bind]; [ | reflexivity ].
    apply gives_intro; reflexivity.
Qed.

Lemma map_one : forall v : list R, map (fun x => x) v = v.
Proof. apply map_id. Qed.

Lemma ufunc2_gives_l : forall s k m (f : R -> R -> R) h x v,
  good s k x ->
  h (lcf s k) None = Ok (lcf s m) ->
  (forall u w, f (Rpower s k * u) w = Rpower s m * f u w) ->
  gives s m (ufunc2 f h (OArr x) (OPlain v)) (broadcast f (phys x) v).
Proof.
  intros s k m f h x v G Hh Hf.
  destruct (prepare_good_l s k x v G) as (b & cp & P & B).
  unfold ufunc2. rewrite P. cbn [bind op_cf p_args p_cm p_vt p_comp].
  rewrite (g_cf _ _ _ G). fold (lcf s k). rewrite Hh. cbn [bind op_vals].
  rewrite (vals_by_cm s k x b G B). destruct b.
  - rewrite <- (map_one v) at 2.
    rewrite (broadcast_map R R f f _ (fun x => x) (fun v => Rpower s m * v) _ _ Hf).
    destruct (broadcast f (avals x) v); cbn [rmap bind]; [ | reflexivity ].
    apply gives_intro; reflexivity.
  - destruct (broadcast f (avals x) v); cbn [bind]; [ | reflexivity ].
    apply gives_intro; reflexivity.
Qed.

Lemma ufunc2_gives_r : forall s k m (f : R -> R -> R) h x v,
  good s k x ->
  h None (lcf s k) = Ok (lcf s m) ->
  (forall u w, f u (Rpower s k * w) = Rpower s m * f u w) ->
  gives s m (ufunc2 f h (OPlain v) (OArr x)) (broadcast f v (phys x)).
Proof.
  intros s k m f h x v G Hh Hf.
  destruct (prepare_good_r s k x v G) as (b & cp & P & B).
  unfold ufunc2. rewrite P. cbn [bind op_cf p_args p_cm p_vt p_comp].
  rewrite (g_cf _ _ _ G). fold (lcf s k). rewrite Hh. cbn [bind op_vals].
  rewrite (vals_by_cm s k x b G B). destruct b.
  - rewrite <- (map_one v) at 2.
    rewrite (broadcast_map R R f f (fun x => x) _ (fun v => Rpower s m * v) _ _ Hf).
    destruct (broadcast f v (avals x)); cbn [rmap bind]; [ | reflexivity ].
    apply gives_intro; reflexivity.
  - destruct (broadcast f v (avals x)); cbn [bind]; [ | reflexivity ].
    apply gives_intro; reflexivity.
Qed.

Lemma ufunc1_gives : forall s k m f h x,
  good s k x ->
  h (lcf s k) = Ok (lcf s m) ->
  (forall u, f (Rpower s k * u) = Rpower s m * f u) ->
  gives s m (ufunc1 f h (OArr x)) (Ok (map f (phys x))).
Proof.
  intros s k m f h x G Hh Hf.
  destruct (prepare_good1 s k x G) as (b & cp & P & B).
  unfold ufunc1. rewrite P. cbn [bind op_cf p_args p_cm p_vt p_comp].
  rewrite (g_cf _ _ _ G). fold (lcf s k). rewrite Hh. cbn [bind op_vals].
  rewrite (vals_by_cm s k x b G B). apply gives_intro.
  destruct b; [ | reflexivity ]. rewrite !map_map. apply map_ext; exact Hf.
Qed.

(** * Homogeneity of the operations *)
Lemma Rmax_scale : forall c x y, 0 < c -> Rmax (c * x) (c * y) = c * Rmax x y.
Proof. intros c x y H; apply RmaxRmult; lra. Qed.
Lemma Rmin_scale : forall c x y, 0 < c -> Rmin (c * x) (c * y) = c * Rmin x y.
Proof.
  intros c x y H. unfold Rmin.
  destruct (Rle_dec (c * x) (c * y)) as [A|A]; destruct (Rle_dec x y) as [B|B]; try reflexivity.
  - exfalso; apply B. apply (Rmult_le_reg_l c); assumption.
  - exfalso; apply A. apply Rmult_le_compat_l; lra.
Qed.

Lemma npow_scale : forall s k p x, npow (Rpower s k * x) p = Rpower s (k * p) * npow x p.
Proof.
  intros s k p x. pose proof (Rpower_pos s k) as Hs. unfold npow.
  rewrite <- (Rpower_mult s k p).
  destruct (Rlt_dec 0 x) as [H|H].
  - destruct (Rlt_dec 0 (Rpower s k * x)) as [H'|H'].
    + symmetry; apply Rpower_mult_distr; assumption.
    + exfalso; apply H'. apply Rmult_lt_0_compat; assumption.
  - destruct (Rlt_dec 0 (Rpower s k * x)) as [H'|H'].
    + exfalso; apply H. apply (Rmult_lt_reg_l (Rpower s k)); [ assumption | lra ].
    + destruct (Req_EM_T x 0) as [E|E].
      * subst x. rewrite Rmult_0_r. destruct (Req_EM_T 0 0); [ | congruence ].
        destruct (Req_EM_T p 0); [ subst p; rewrite Rpower_O by assumption; lra | lra ].
      * destruct (Req_EM_T (Rpower s k * x) 0) as [E'|E'].
        { exfalso. apply Rmult_integral in E'. lra. }
        destruct (Req_EM_T p (IZR (up p - 1))) as [Ep|Ep]; [ | lra ].
        rewrite powerRZ_mult. rewrite powerRZ_Rpower by assumption.
        rewrite <- Ep. reflexivity.
Qed.

Lemma ncbrt_scale : forall s k x, ncbrt (Rpower s k * x) = Rpower s (k / 3) * ncbrt x.
Proof.
  intros s k x. pose proof (Rpower_pos s k) as Hs. unfold ncbrt.
  unfold Rdiv. rewrite <- (Rpower_mult s k (/ 3)).
  destruct (Rlt_dec 0 x) as [H|H].
  - destruct (Rlt_dec 0 (Rpower s k * x)) as [H'|H'].
    + symmetry; apply Rpower_mult_distr; assumption.
    + exfalso; apply H'. apply Rmult_lt_0_compat; assumption.
  - destruct (Rlt_dec 0 (Rpower s k * x)) as [H'|H'].
    + exfalso; apply H. apply (Rmult_lt_reg_l (Rpower s k)); [ assumption | lra ].
    + destruct (Rlt_dec x 0) as [L|L]; destruct (Rlt_dec (Rpower s k * x) 0) as [L'|L'].
      * replace (- (Rpower s k * x)) with (Rpower s k * - x) by ring.
        rewrite <- (Rpower_mult_distr (Rpower s k) (- x)) by lra. ring.
      * exfalso; apply L'. replace 0 with (Rpower s k * 0) by ring.
        apply Rmult_lt_compat_l; assumption.
      * assert (x = 0) by lra; subst x. rewrite Rmult_0_r in L'. lra.
      * ring.
Qed.

Lemma sqrt_scale : forall s k x, sqrt (Rpower s k * x) = Rpower s (k / 2) * sqrt x.
Proof.
  intros s k x. pose proof (Rpower_pos s k) as Hs.
  rewrite sqrt_mult_alt by lra. f_equal.
  rewrite <- Rpower_sqrt by assumption. rewrite Rpower_mult. reflexivity.
Qed.

Lemma Rinv_scale : forall s k x, / (Rpower s k * x) = Rpower s (- k) * / x.
Proof. intros s k x. rewrite Rinv_mult, Rpower_Ropp. reflexivity. Qed.

Lemma sum_scale : forall c l, sumR (map (fun v => c * v) l) = c * sumR l.
Proof. induction l; unfold sumR in *; cbn; [ ring | rewrite IHl; ring ]. Qed.

Lemma prod_scale : forall s k l,
  prodR (map (fun v => Rpower s k * v) l) = Rpower s (k * INR (length l)) * prodR l.
Proof.
  induction l as [|x l IH].
  - unfold prodR; cbn. rewrite Rmult_0_r. unfold Rpower. rewrite Rmult_0_l, exp_0. ring.
  - cbn [map length]. unfold prodR in *. cbn [fold_right]. rewrite IH, S_INR.
    rewrite Rmult_plus_distr_l, Rmult_1_r, Rpower_plus. ring.
Qed.

(** * Handlers on declared labels *)
Lemma h_same : forall s k, h_preserve [lcf s k; lcf s k] = Ok (lcf s k).
Proof. intros; unfold h_preserve, reduce, reduce_from, h_preserve2, lcf. rewrite cf_eq_refl. reflexivity. Qed.
Lemma h_pass_same : forall s k, h_passthrough2 (lcf s k) (lcf s k) = Ok (lcf s k).
Proof. intros; unfold h_passthrough2, lcf. rewrite cf_eq_refl. reflexivity. Qed.
Lemma h_mul_ok : forall s j k, h_multiply2 (lcf s j) (lcf s k) = Ok (lcf s (j + k)).
Proof. intros; unfold h_multiply2, lcf, cf_mul. cbn. rewrite Reqb_refl. reflexivity. Qed.
Lemma h_power_ok : forall s k p, h_power (lcf s k) None p = Ok (lcf s (k * p)).
Proof. reflexivity. Qed.
Lemma lcf_eq : forall s j k, j = k -> lcf s j = lcf s k.
Proof. congruence. Qed.
Lemma h_div_ok : forall s j k, h_divide (lcf s j) (lcf s k) = Ok (lcf s (j - k)).
Proof.
  intros; unfold h_divide, h_reciprocal. rewrite h_power_ok. cbn [bind]. rewrite h_mul_ok.
  f_equal. apply lcf_eq. ring.
Qed.

Lemma binop_same_gives : forall s k o x y,
  In o [Badd; Bsub; Bmax; Bmin] -> good s k x -> good s k y ->
  gives s k (binop o (OArr x) (OArr y)) (broadcast (bfun o) (phys x) (phys y)).
Proof.
  intros s k o x y Ho Gx Gy. unfold binop.
  apply (ufunc2_gives s k k k); try assumption.
  - cbn in Ho. destruct Ho as [<-|[<-|[<-|[<-|[]]]]]; cbn [bhandler];
      (apply h_same || apply h_pass_same).
  - pose proof (Rpower_pos s k) as Hp. intros u v.
    cbn in Ho. destruct Ho as [<-|[<-|[<-|[<-|[]]]]]; cbn [bfun];
      [ ring | ring | apply Rmax_scale; assumption | apply Rmin_scale; assumption ].
Qed.

Lemma binop_mul_gives : forall s j k x y, good s j x -> good s k y ->
  gives s (j + k) (binop Bmul (OArr x) (OArr y)) (broadcast (bfun Bmul) (phys x) (phys y)).
Proof.
  intros s j k x y Gx Gy. unfold binop. apply (ufunc2_gives s j k); try assumption.
  - cbn [bhandler]. unfold h_multiply, reduce, reduce_from. rewrite h_mul_ok. reflexivity.
  - intros u v; cbn [bfun]. rewrite Rpower_plus. ring.
Qed.

Lemma binop_div_gives : forall s j k x y, good s j x -> good s k y ->
  gives s (j - k) (binop Bdiv (OArr x) (OArr y)) (broadcast (bfun Bdiv) (phys x) (phys y)).
Proof.
  intros s j k x y Gx Gy. unfold binop. apply (ufunc2_gives s j k); try assumption.
  - cbn [bhandler]. apply h_div_ok.
  - intros u v; cbn [bfun]. unfold Rdiv. rewrite Rinv_scale. unfold Rminus.
    rewrite Rpower_plus. ring.
Qed.

Lemma binop_num_l_gives : forall s k x v, good s k x ->
  gives s k (binop Bmul (OPlain v) (OArr x)) (broadcast (bfun Bmul) v (phys x)).
Proof.
  intros s k x v G. unfold binop. apply (ufunc2_gives_r s k); try assumption.
  - reflexivity.
  - intros u w; cbn [bfun]. ring.
Qed.
Lemma binop_num_div_gives : forall s k x v, good s k x ->
  gives s (- k) (binop Bdiv (OPlain v) (OArr x)) (broadcast (bfun Bdiv) v (phys x)).
Proof.
  intros s k x v G. unfold binop. apply (ufunc2_gives_r s k); try assumption.
  - cbn [bhandler]. unfold h_divide, h_reciprocal. rewrite h_power_ok. cbn [bind].
    change (Ok (lcf s (k * - (1))) = Ok (lcf s (- k))). f_equal. apply lcf_eq. ring.
  - intros u w; cbn [bfun]. unfold Rdiv. rewrite Rinv_scale. ring.
Qed.
Lemma binop_num_r_gives : forall s k o x v, In o [Bmul; Bdiv] -> good s k x ->
  gives s k (binop o (OArr x) (OPlain v)) (broadcast (bfun o) (phys x) v).
Proof.
  intros s k o x v Ho G. unfold binop. apply (ufunc2_gives_l s k); try assumption.
  - cbn in Ho; destruct Ho as [<-|[<-|[]]]; reflexivity.
  - intros u w; cbn in Ho; destruct Ho as [<-|[<-|[]]]; cbn [bfun]; unfold Rdiv; ring.
Qed.

Definition udim (o : uop) (k : R) : R :=
  match o with
  | Uneg | Uabs => k | Usqrt => k / 2 | Usquare => 2 * k | Ucbrt => k / 3 | Urecip => - k
  end.

Lemma unop_gives : forall s k o x, good s k x ->
  gives s (udim o k) (unop o (OArr x)) (Ok (map (ufun o) (phys x))).
Proof.
  intros s k o x G. unfold unop. apply (ufunc1_gives s k); try assumption.
  - destruct o; cbn [uhandler udim]; try reflexivity;
      unfold h_sqrt, h_square, h_cbrt, h_reciprocal; rewrite h_power_ok; f_equal; apply lcf_eq; field.
  - pose proof (Rpower_pos s k) as Hp. intro u. destruct o; cbn [ufun udim].
    + ring.
    + rewrite Rabs_mult, (Rabs_right (Rpower s k)) by lra. reflexivity.
    + apply sqrt_scale.
    + replace (2 * k) with (k + k) by ring. rewrite Rpower_plus. ring.
    + apply ncbrt_scale.
    + apply Rinv_scale.
Qed.

Lemma powop_gives : forall s k p x, good s k x ->
  gives s (k * p) (powop (OArr x) (OPlain [p])) (broadcast npow (phys x) [p]).
Proof.
  intros s k p x G. unfold powop; cbn [op_vals].
  destruct (prepare_good_l s k x [p] G) as (b & cp & P & B).
  unfold ufunc2. rewrite P. cbn [bind op_cf p_args p_cm p_vt p_comp].
  rewrite (g_cf _ _ _ G). fold (lcf s k). rewrite h_power_ok. cbn [bind op_vals].
  rewrite (vals_by_cm s k x b G B).
  assert (E : forall v, broadcast npow v [p] = Ok (map (fun x => npow x p) v)).
  { intros v. unfold broadcast. destruct v as [|a [|a' v]]; cbn; reflexivity. }
  rewrite !E. cbn [bind]. apply gives_intro.
  destruct b; [ | reflexivity ]. rewrite !map_map. apply map_ext. intro u. apply npow_scale.
Qed.

Lemma sumop_gives : forall s k x, good s k x ->
  gives s k (sumop (OArr x)) (Ok [sumR (phys x)]).
Proof.
  intros s k x G. destruct (prepare_good1 s k x G) as (b & cp & P & B).
  unfold sumop. rewrite P. cbn [bind op_cf p_args p_cm p_vt p_comp].
  rewrite (g_cf _ _ _ G). cbn [h_preserve reduce reduce_from bind op_vals]. fold (lcf s k).
  rewrite (vals_by_cm s k x b G B). apply gives_intro.
  destruct b; [ | reflexivity ]. rewrite sum_scale. reflexivity.
Qed.

Lemma phys_length : forall x, length (phys x) = length (avals x).
Proof.
  intros x; unfold phys. destruct (acm x) as [[|]|]; try reflexivity.
  destruct (acf x) as [[[k|] [s|]]|]; try reflexivity. apply map_length.
Qed.

Lemma prodop_gives : forall s k x, good s k x ->
  gives s (k * INR (length (phys x))) (prodop (OArr x)) (Ok [prodR (phys x)]).
Proof.
  intros s k x G. destruct (prepare_good1 s k x G) as (b & cp & P & B).
  rewrite phys_length.
  unfold prodop. rewrite P. cbn [bind op_cf p_args p_cm p_vt p_comp op_vals].
  rewrite (g_cf _ _ _ G). fold (lcf s k). rewrite h_power_ok. cbn [bind].
  rewrite (vals_by_cm s k x b G B). apply gives_intro.
  destruct b; [ | reflexivity ]. rewrite prod_scale. reflexivity.
Qed.

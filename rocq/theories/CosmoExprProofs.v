(** Nested expressions, comparisons, rejected operations and the mixed case. *)
From Coq Require Import String List ZArith Bool Reals Lra Lia.
From Verif Require Import Base CosmoModel CosmoSpec CosmoProofs.
Import ListNotations.
Open Scope R_scope.

Lemma gives_agrees : forall s m r v, gives s m r v ->
  match v with
  | Ok w => exists o, (do x <- r; Ok (OArr x)) = Ok o /\ agrees s (DArr m) o w
  | Err e => (do x <- r; Ok (OArr x)) = Err e
  end.
Proof.
  intros s m [x|e] [w|f] G; cbn in *; try contradiction; [ | congruence ].
  exists (OArr x); split; [ reflexivity | exact G ].
Qed.

Lemma gives_dim : forall s j k r v, j = k -> gives s j r v -> gives s k r v.
Proof. congruence. Qed.

Lemma eval_agrees : forall s e d, has_dim s e d ->
  match meaning e with
  | Ok v => exists o, eval e = Ok o /\ agrees s d o v
  | Err er => eval e = Err er
  end.
Proof.
  intros s e d H; induction H; cbn [meaning eval].
  - exists (OArr x); split; [ reflexivity | ]. split; [ assumption | reflexivity ].
  - exists (OPlain [v]); split; reflexivity.
  - (* same *)
    destruct (meaning e1) as [v|er]; cbn [bind].
    2:{ rewrite IHhas_dim1. reflexivity. }
    destruct IHhas_dim1 as (x & Ex & Ax). rewrite Ex. cbn [bind].
    destruct (meaning e2) as [w|er]; cbn [bind].
    2:{ rewrite IHhas_dim2. reflexivity. }
    destruct IHhas_dim2 as (y & Ey & Ay). rewrite Ey. cbn [bind].
    destruct d as [k|]; destruct x as [x|x]; destruct y as [y|y]; cbn in Ax, Ay; try contradiction.
    + destruct Ax as [Gx <-]; destruct Ay as [Gy <-]. cbn [lift2].
      apply gives_agrees. apply binop_same_gives; assumption.
    + subst. cbn [lift2]. unfold plain2.
      destruct (broadcast (bfun o) v w); cbn [bind]; [ | reflexivity ].
      eexists; split; reflexivity.
  - (* mul *)
    destruct (meaning e1) as [v|er]; cbn [bind].
    2:{ rewrite IHhas_dim1. reflexivity. }
    destruct IHhas_dim1 as (x & Ex & Ax). rewrite Ex. cbn [bind].
    destruct (meaning e2) as [w|er]; cbn [bind].
    2:{ rewrite IHhas_dim2. reflexivity. }
    destruct IHhas_dim2 as (y & Ey & Ay). rewrite Ey. cbn [bind].
    destruct x as [x|x]; destruct y as [y|y]; cbn in Ax, Ay; try contradiction.
    destruct Ax as [Gx <-]; destruct Ay as [Gy <-]. cbn [lift2].
    apply gives_agrees. apply binop_mul_gives; assumption.
  - (* div *)
    destruct (meaning e1) as [v|er]; cbn [bind].
    2:{ rewrite IHhas_dim1. reflexivity. }
    destruct IHhas_dim1 as (x & Ex & Ax). rewrite Ex. cbn [bind].
    destruct (meaning e2) as [w|er]; cbn [bind].
    2:{ rewrite IHhas_dim2. reflexivity. }
    destruct IHhas_dim2 as (y & Ey & Ay). rewrite Ey. cbn [bind].
    destruct x as [x|x]; destruct y as [y|y]; cbn in Ax, Ay; try contradiction.
    destruct Ax as [Gx <-]; destruct Ay as [Gy <-]. cbn [lift2].
    apply gives_agrees. apply binop_div_gives; assumption.
  - (* number times array *)
    subst o.
    destruct (meaning e1) as [v|er]; cbn [bind].
    2:{ rewrite IHhas_dim1. reflexivity. }
    destruct IHhas_dim1 as (x & Ex & Ax). rewrite Ex. cbn [bind].
    destruct (meaning e2) as [w|er]; cbn [bind].
    2:{ rewrite IHhas_dim2. reflexivity. }
    destruct IHhas_dim2 as (y & Ey & Ay). rewrite Ey. cbn [bind].
    destruct x as [x|x]; destruct y as [y|y]; cbn in Ax, Ay; try contradiction.
    subst x. destruct Ay as [Gy <-]. cbn [lift2].
    apply gives_agrees. apply binop_num_l_gives; assumption.
  - (* number over array *)
    destruct (meaning e1) as [v|er]; cbn [bind].
    2:{ rewrite IHhas_dim1. reflexivity. }
    destruct IHhas_dim1 as (x & Ex & Ax). rewrite Ex. cbn [bind].
    destruct (meaning e2) as [w|er]; cbn [bind].
    2:{ rewrite IHhas_dim2. reflexivity. }
    destruct IHhas_dim2 as (y & Ey & Ay). rewrite Ey. cbn [bind].
    destruct x as [x|x]; destruct y as [y|y]; cbn in Ax, Ay; try contradiction.
    subst x. destruct Ay as [Gy <-]. cbn [lift2].
    apply gives_agrees. apply binop_num_div_gives; assumption.
  - (* array and number *)
    destruct (meaning e1) as [v|er]; cbn [bind].
    2:{ rewrite IHhas_dim1. reflexivity. }
    destruct IHhas_dim1 as (x & Ex & Ax). rewrite Ex. cbn [bind].
    destruct (meaning e2) as [w|er]; cbn [bind].
    2:{ rewrite IHhas_dim2. reflexivity. }
    destruct IHhas_dim2 as (y & Ey & Ay). rewrite Ey. cbn [bind].
    destruct x as [x|x]; destruct y as [y|y]; cbn in Ax, Ay; try contradiction.
    subst y. destruct Ax as [Gx <-]. cbn [lift2].
    apply gives_agrees. apply binop_num_r_gives; assumption.
  - (* numbers *)
    destruct (meaning e1) as [v|er]; cbn [bind].
    2:{ rewrite IHhas_dim1. reflexivity. }
    destruct IHhas_dim1 as (x & Ex & Ax). rewrite Ex. cbn [bind].
    destruct (meaning e2) as [w|er]; cbn [bind].
    2:{ rewrite IHhas_dim2. reflexivity. }
    destruct IHhas_dim2 as (y & Ey & Ay). rewrite Ey. cbn [bind].
    destruct x as [x|x]; destruct y as [y|y]; cbn in Ax, Ay; try contradiction.
    subst. cbn [lift2]. unfold plain2.
    destruct (broadcast (bfun o) v w); cbn [bind]; [ | reflexivity ].
    eexists; split; reflexivity.
  - (* keep *)
    destruct (meaning e1) as [v|er]; cbn [bind].
    2:{ rewrite IHhas_dim. reflexivity. }
    destruct IHhas_dim as (x & Ex & Ax). rewrite Ex. cbn [bind].
    destruct d as [k|]; destruct x as [x|x]; cbn in Ax; try contradiction.
    + destruct Ax as [G <-]. cbn [lift1].
      refine (gives_agrees s k _ (Ok _) _).
      replace k with (udim o k) by (cbn in H; destruct H as [<-|[<-|[]]]; reflexivity).
      apply unop_gives; assumption.
    + subst. eexists; split; reflexivity.
  - destruct (meaning e1) as [v|er]; cbn [bind].
    2:{ rewrite IHhas_dim. reflexivity. }
    destruct IHhas_dim as (x & Ex & Ax). rewrite Ex. cbn [bind].
    destruct x as [x|x]; cbn in Ax; try contradiction. destruct Ax as [G <-]. cbn [lift1].
    exact (gives_agrees s _ _ (Ok _) (unop_gives s k Usqrt x G)).
  - destruct (meaning e1) as [v|er]; cbn [bind].
    2:{ rewrite IHhas_dim. reflexivity. }
    destruct IHhas_dim as (x & Ex & Ax). rewrite Ex. cbn [bind].
    destruct x as [x|x]; cbn in Ax; try contradiction. destruct Ax as [G <-]. cbn [lift1].
    exact (gives_agrees s _ _ (Ok _) (unop_gives s k Usquare x G)).
  - destruct (meaning e1) as [v|er]; cbn [bind].
    2:{ rewrite IHhas_dim. reflexivity. }
    destruct IHhas_dim as (x & Ex & Ax). rewrite Ex. cbn [bind].
    destruct x as [x|x]; cbn in Ax; try contradiction. destruct Ax as [G <-]. cbn [lift1].
    exact (gives_agrees s _ _ (Ok _) (unop_gives s k Ucbrt x G)).
  - destruct (meaning e1) as [v|er]; cbn [bind].
    2:{ rewrite IHhas_dim. reflexivity. }
    destruct IHhas_dim as (x & Ex & Ax). rewrite Ex. cbn [bind].
    destruct x as [x|x]; cbn in Ax; try contradiction. destruct Ax as [G <-]. cbn [lift1].
    exact (gives_agrees s _ _ (Ok _) (unop_gives s k Urecip x G)).
  - destruct (meaning e1) as [v|er]; cbn [bind].
    2:{ rewrite IHhas_dim. reflexivity. }
    destruct IHhas_dim as (x & Ex & Ax). rewrite Ex. cbn [bind].
    destruct x as [x|x]; cbn in Ax; try contradiction. subst.
    eexists; split; reflexivity.
  - destruct (meaning e1) as [v|er]; cbn [bind].
    2:{ rewrite IHhas_dim. reflexivity. }
    destruct IHhas_dim as (x & Ex & Ax). rewrite Ex. cbn [bind].
    destruct x as [x|x]; cbn in Ax; try contradiction. destruct Ax as [G <-]. cbn [lift2].
    apply gives_agrees. apply powop_gives; assumption.
  - destruct (meaning e1) as [v|er]; cbn [bind].
    2:{ rewrite IHhas_dim. reflexivity. }
    destruct IHhas_dim as (x & Ex & Ax). rewrite Ex. cbn [bind].
    destruct x as [x|x]; cbn in Ax; try contradiction. subst. cbn [lift2]. unfold plain2.
    destruct (broadcast npow v [p]); cbn [bind]; [ | reflexivity ].
    eexists; split; reflexivity.
  - destruct (meaning e1) as [v|er]; cbn [bind].
    2:{ rewrite IHhas_dim. reflexivity. }
    destruct IHhas_dim as (x & Ex & Ax). rewrite Ex. cbn [bind].
    destruct d as [k|]; destruct x as [x|x]; cbn in Ax; try contradiction.
    + destruct Ax as [G <-]. cbn [lift1].
      exact (gives_agrees s k _ (Ok _) (sumop_gives s k x G)).
    + subst. eexists; split; reflexivity.
  - (* prod *)
    rewrite H0 in IHhas_dim |- *. cbn [bind].
    destruct IHhas_dim as (x & Ex & Ax). rewrite Ex. cbn [bind].
    destruct x as [x|x]; cbn in Ax; try contradiction. destruct Ax as [G Hv]. cbn [lift1].
    subst v n.
    exact (gives_agrees s _ _ (Ok _) (prodop_gives s k x G)).
  - destruct (meaning e1) as [v|er]; cbn [bind].
    2:{ rewrite IHhas_dim. reflexivity. }
    destruct IHhas_dim as (x & Ex & Ax). rewrite Ex. cbn [bind].
    destruct x as [x|x]; cbn in Ax; try contradiction. subst.
    eexists; split; reflexivity.
Qed.

(** * Comparisons *)
Lemma Rltb_scale : forall c x y, 0 < c -> Rltb (c * x) (c * y) = Rltb x y.
Proof.
  intros c x y H. unfold Rltb.
  destruct (Rlt_dec (c * x) (c * y)) as [A|A]; destruct (Rlt_dec x y) as [B|B]; try reflexivity.
  - exfalso; apply B. apply (Rmult_lt_reg_l c); assumption.
  - exfalso; apply A. apply Rmult_lt_compat_l; assumption.
Qed.
Lemma Rleb_scale : forall c x y, 0 < c -> Rleb (c * x) (c * y) = Rleb x y.
Proof.
  intros c x y H. unfold Rleb.
  destruct (Rle_dec (c * x) (c * y)) as [A|A]; destruct (Rle_dec x y) as [B|B]; try reflexivity.
  - exfalso; apply B. apply (Rmult_le_reg_l c); assumption.
  - exfalso; apply A. apply Rmult_le_compat_l; lra.
Qed.
Lemma Reqb_scale : forall c x y, 0 < c -> Reqb (c * x) (c * y) = Reqb x y.
Proof.
  intros c x y H. unfold Reqb.
  destruct (Req_EM_T (c * x) (c * y)) as [A|A]; destruct (Req_EM_T x y) as [B|B]; try reflexivity.
  - exfalso; apply B. apply (Rmult_eq_reg_l c); lra.
  - exfalso; apply A. congruence.
Qed.
Lemma cfun_scale : forall o c x y, 0 < c -> cfun o (c * x) (c * y) = cfun o x y.
Proof.
  intros o c x y H; destruct o; cbn [cfun];
    rewrite ?Rltb_scale, ?Rleb_scale, ?Reqb_scale by assumption; reflexivity.
Qed.

Lemma rmap_id : forall A (r : res (list A)), rmap (map (fun x => x)) r = r.
Proof. intros A [l|e]; cbn; [ rewrite map_id | ]; reflexivity. Qed.

Lemma cmpop_phys : forall s k o x y, good s k x -> good s k y ->
  cmpop o (OArr x) (OArr y) = broadcast (cfun o) (phys x) (phys y).
Proof.
  intros s k o x y Gx Gy.
  destruct (prepare_good2 s k k x y Gx Gy) as (x' & y' & b & cp & P & Gx' & Gy' & Bx & By & Px & Py).
  unfold cmpop, ufunc_cmp. rewrite P. cbn [bind op_cf p_args].
  rewrite (g_cf _ _ _ Gx), (g_cf _ _ _ Gy). unfold h_compare. rewrite cf_eq_refl. cbn [negb bind op_vals].
  rewrite <- Px, <- Py, (vals_by_cm s k x' b Gx' Bx), (vals_by_cm s k y' b Gy' By).
  destruct b; [ | reflexivity ].
  rewrite (broadcast_map bool bool (cfun o) (cfun o) _ _ (fun c => c)).
  - symmetry; apply rmap_id.
  - intros u v; apply cfun_scale. apply Rpower_pos.
Qed.

(** * Rejected operations *)
(** Labels that cannot be told apart: same scale factor and scale-factor powers
    within the tolerance. *)
Definition close_factors (s j k : R) : Prop :=
  Rabs (Rpower s j - Rpower s k) <= 1 / 10 ^ 8 + 1 / 10 ^ 6 * Rpower s k.

Lemma cf_eq_close : forall s j k,
  cf_eq (mkcf (Some j) (Some s)) (mkcf (Some k) (Some s)) = true <-> close_factors s j k.
Proof.
  intros s j k. unfold cf_eq, a_factor; cbn [cscale cexpr oreqb]. rewrite Reqb_refl. cbn [andb].
  unfold isclose, close_factors. rewrite (Rabs_right (Rpower s k)) by (pose proof (Rpower_pos s k); lra).
  apply Rleb_true.
Qed.

Lemma cf_eq_scale : forall c d, cf_eq c d = true -> cscale c = cscale d.
Proof.
  intros c d H. unfold cf_eq in H. apply andb_true_iff in H. destruct H as [H _].
  apply oreqb_true; exact H.
Qed.

(** [prepare] succeeds on declared convertible arrays whatever their labels. *)
Lemma prepare_decl2 : forall x y cx kx sx cy ky sy,
  acf x = Some cx -> cexpr cx = Some kx -> cscale cx = Some sx ->
  acf y = Some cy -> cexpr cy = Some ky -> cscale cy = Some sy ->
  avt x = true -> avt y = true -> acm x <> None -> acm y <> None ->
  exists x' y' b cp, prepare true [OArr x; OArr y]
    = Ok (mkprep [OArr x'; OArr y'] [acf x; acf y] (Some b) true cp).
Proof.
  intros x y [ex ax] kx sx [ey ay] ky sy Fx E1 E2 Fy E3 E4 Vx Vy Mx My; cbn in *; subst.
  assert (Gx : good sx kx x) by (constructor; assumption).
  assert (Gy : good sy ky y) by (constructor; assumption).
  pose proof (to_c_good _ _ x Gx) as Cx. pose proof (to_c_good _ _ y Gy) as Cy.
  unfold prepare; cbn [map op_cm op_cf op_vt filter fst snd forallb existsb].
  rewrite Vx, Vy.
  destruct (acm x) as [[|]|] eqn:Ex; [ | | congruence ];
    destruct (acm y) as [[|]|] eqn:Ey; [ | | congruence | | | congruence ];
    cbn [is_true is_false is_none andb orb negb forallb existsb coerce map];
    rewrite ?Ex, ?Ey; cbn [is_true all_ok]; rewrite ?Cx, ?Cy; cbn [bind all_ok];
    repeat eexists.
Qed.

Lemma prepare_goods : forall s t j k x y, good s j x -> good t k y ->
  exists x' y' b cp, prepare true [OArr x; OArr y]
    = Ok (mkprep [OArr x'; OArr y'] [lcf s j; lcf t k] (Some b) true cp).
Proof.
  intros s t j k x y Gx Gy. destruct Gx as [F1 M1 V1]; destruct Gy as [F2 M2 V2].
  destruct (prepare_decl2 x y _ j s _ k t F1 eq_refl eq_refl F2 eq_refl eq_refl V1 V2 M1 M2)
    as (x' & y' & b & cp & P).
  rewrite F1, F2 in P. exists x', y', b, cp. exact P.
Qed.

Lemma same_reject : forall s t j k o x y,
  In o [Badd; Bsub; Bmax; Bmin] -> good s j x -> good t k y ->
  s <> t \/ ~ close_factors s j k ->
  binop o (OArr x) (OArr y) = Err ValueError.
Proof.
  intros s t j k o x y Ho Gx Gy N.
  destruct (prepare_goods s t j k x y Gx Gy) as (x' & y' & b & cp & P).
  unfold binop, ufunc2. rewrite P. cbn [bind op_cf].
  rewrite (g_cf _ _ _ Gx), (g_cf _ _ _ Gy).
  assert (E : cf_eq (mkcf (Some j) (Some s)) (mkcf (Some k) (Some t)) = false).
  { destruct (cf_eq (mkcf (Some j) (Some s)) (mkcf (Some k) (Some t))) eqn:E; [ | reflexivity ].
    pose proof (cf_eq_scale _ _ E) as S; cbn in S. injection S as S. subst t.
    apply cf_eq_close in E. destruct N; [ congruence | contradiction ]. }
  cbn in Ho. destruct Ho as [<-|[<-|[<-|[<-|[]]]]];
    cbn [bhandler h_preserve reduce reduce_from h_preserve2 h_passthrough2];
    rewrite ?E; cbn; try reflexivity.
Qed.

Lemma cmp_reject : forall s t j k o x y,
  good s j x -> good t k y -> s <> t \/ ~ close_factors s j k ->
  cmpop o (OArr x) (OArr y) = Err ValueError.
Proof.
  intros s t j k o x y Gx Gy N.
  destruct (prepare_goods s t j k x y Gx Gy) as (x' & y' & b & cp & P).
  unfold cmpop, ufunc_cmp. rewrite P. cbn [bind op_cf].
  rewrite (g_cf _ _ _ Gx), (g_cf _ _ _ Gy).
  assert (E : cf_eq (mkcf (Some j) (Some s)) (mkcf (Some k) (Some t)) = false).
  { destruct (cf_eq (mkcf (Some j) (Some s)) (mkcf (Some k) (Some t))) eqn:E; [ | reflexivity ].
    pose proof (cf_eq_scale _ _ E) as S; cbn in S. injection S as S. subst t.
    apply cf_eq_close in E. destruct N; [ congruence | contradiction ]. }
  cbn [h_compare]. rewrite E. reflexivity.
Qed.

Lemma muldiv_reject : forall s t j k o x y,
  In o [Bmul; Bdiv] -> good s j x -> good t k y -> s <> t ->
  binop o (OArr x) (OArr y) = Err InvalidScaleFactor.
Proof.
  intros s t j k o x y Ho Gx Gy N.
  destruct (prepare_goods s t j k x y Gx Gy) as (x' & y' & b & cp & P).
  unfold binop, ufunc2. rewrite P. cbn [bind op_cf].
  rewrite (g_cf _ _ _ Gx), (g_cf _ _ _ Gy).
  assert (E : Reqb s t = false) by (apply Reqb_false; assumption).
  cbn in Ho. destruct Ho as [<-|[<-|[]]];
    unfold bhandler, h_multiply, reduce, reduce_from, h_multiply2, h_divide, h_reciprocal,
      h_power, cf_pow, cf_mul, h_multiply2; cbn [bind oreqb cscale cexpr];
    rewrite ?E; cbn; try reflexivity.
  unfold cf_mul; cbn [cscale oreqb]. rewrite E. reflexivity.
Qed.

(** * Sums of labels that the tolerance does not tell apart *)
Lemma map2_nth : forall A B C (f : A -> B -> C) xs ys i x y,
  nth_error xs i = Some x -> nth_error ys i = Some y ->
  nth_error (map2 f xs ys) i = Some (f x y).
Proof.
  induction xs; destruct ys, i; cbn; intros; try discriminate; [ congruence | eauto ].
Qed.

Lemma add_unlike : forall s j k x y r,
  good s j x -> good s k y -> length (avals x) = length (avals y) ->
  binop Badd (OArr x) (OArr y) = Ok r ->
  close_factors s j k /\
  forall i u v, nth_error (phys x) i = Some u -> nth_error (comov y) i = Some v ->
    exists w, nth_error (phys r) i = Some w
      /\ Rabs (w - (u + Rpower s k * v)) <= (1 / 10 ^ 8 + 1 / 10 ^ 6 * Rpower s k) * Rabs v.
Proof.
  intros s j k x y r Gx Gy L E.
  assert (C : close_factors s j k).
  { destruct (Rle_dec (Rabs (Rpower s j - Rpower s k)) (1 / 10 ^ 8 + 1 / 10 ^ 6 * Rpower s k)) as [C|C];
      [ exact C | ].
    rewrite (same_reject s s j k Badd x y) in E; [ discriminate | left; reflexivity
      | assumption | assumption | right; exact C ]. }
  split; [ exact C | ].
  pose proof (g_cf _ _ _ Gx) as Fx. pose proof (g_cf _ _ _ Gy) as Fy.
  pose proof (g_vt _ _ _ Gx) as Vx. pose proof (g_vt _ _ _ Gy) as Vy.
  pose proof (g_cm _ _ _ Gx) as Mx. pose proof (g_cm _ _ _ Gy) as My.
  pose proof (to_c_good s j x Gx) as Cx. pose proof (to_c_good s k y Gy) as Cy.
  apply cf_eq_close in C.
  assert (Lc : forall z, length (comov z) = length (avals z)).
  { intro z; unfold comov. destruct (acm z) as [[|]|]; try reflexivity.
    destruct (acf z) as [[[?|] [?|]]|]; try reflexivity. apply map_length. }
  unfold binop, ufunc2, prepare in E.
  cbn [map op_cm op_cf op_vt filter fst snd forallb existsb] in E.
  rewrite Vx, Vy, Fx, Fy in E.
  assert (Hb : forall xv yv b cp,
    length xv = length yv ->
    (exists w, w = r /\ (do rcf <- bhandler Badd (lcf s j) (lcf s k);
       do v <- broadcast (bfun Badd) xv yv; Ok (mkarr v rcf (Some b) true cp)) = Ok w) ->
    r = mkarr (map2 Rplus xv yv) (lcf s j) (Some b) true cp).
  { intros xv yv b cp Lv (w & -> & E').
    cbn [bhandler h_preserve reduce reduce_from h_preserve2 lcf] in E'.
    rewrite C in E'. cbn [negb bind] in E'. unfold broadcast in E'.
    rewrite Lv, Nat.eqb_refl in E'. cbn [bind] in E'. injection E' as <-. reflexivity. }
  apply cf_eq_close in C.
  intros i u v Hu Hv.
  destruct (acm x) as [[|]|] eqn:Ex; [ | | congruence ];
    destruct (acm y) as [[|]|] eqn:Ey; [ | | congruence | | | congruence ];
    cbn [is_true is_false is_none andb orb negb forallb existsb coerce map bind
         p_args p_cm p_vt p_comp op_vals] in E;
    rewrite ?Ex, ?Ey in E; cbn [is_true all_ok bind] in E; rewrite ?Cx, ?Cy in E;
    cbn [bind all_ok p_args p_cm p_vt p_comp op_vals avals set_cm] in E.
  - pose proof (Hb (avals x) (avals y) true _ L (ex_intro _ r (conj eq_refl E))) as ->.
    unfold phys, lcf in *; cbn [acm acf avals] in *; rewrite Ex, ?Fx in Hu.
    unfold comov in Hv; rewrite Ey, ?Fy in Hv.
    rewrite nth_error_map in Hu. destruct (nth_error (avals x) i) as [xi|] eqn:Hx; [ | discriminate ].
    cbn in Hu. injection Hu as <-.
    eexists; split.
    + rewrite nth_error_map, (map2_nth _ _ _ Rplus _ _ _ _ _ Hx Hv). reflexivity.
    + cbn beta.
      replace (Rpower s j * (xi + v) - (Rpower s j * xi + Rpower s k * v))
        with ((Rpower s j - Rpower s k) * v) by ring.
      rewrite Rabs_mult. apply Rmult_le_compat_r; [ apply Rabs_pos | exact C ].
  - pose proof (Hb (avals x) (comov y) true _ (eq_trans L (eq_sym (Lc y))) (ex_intro _ r (conj eq_refl E))) as ->.
    unfold phys, lcf in *; cbn [acm acf avals] in *; rewrite Ex, ?Fx in Hu.
    rewrite nth_error_map in Hu. destruct (nth_error (avals x) i) as [xi|] eqn:Hx; [ | discriminate ].
    cbn in Hu. injection Hu as <-.
    eexists; split.
    + rewrite nth_error_map, (map2_nth _ _ _ Rplus _ _ _ _ _ Hx Hv). reflexivity.
    + cbn beta.
      replace (Rpower s j * (xi + v) - (Rpower s j * xi + Rpower s k * v))
        with ((Rpower s j - Rpower s k) * v) by ring.
      rewrite Rabs_mult. apply Rmult_le_compat_r; [ apply Rabs_pos | exact C ].
  - pose proof (Hb (comov x) (avals y) true _ (eq_trans (Lc x) L) (ex_intro _ r (conj eq_refl E))) as ->.
    unfold comov in Hv; rewrite Ey, ?Fy in Hv.
    unfold phys, lcf in *; cbn [acm acf avals] in *; rewrite Ex, ?Fx in Hu.
    eexists; split.
    + rewrite nth_error_map.
      rewrite (map2_nth _ _ _ Rplus _ _ i (u / Rpower s j) v); [ reflexivity | | exact Hv ].
      unfold comov; rewrite Ex, Fx. rewrite nth_error_map, Hu. reflexivity.
    + cbn beta.
      replace (Rpower s j * (u / Rpower s j + v) - (u + Rpower s k * v))
        with ((Rpower s j - Rpower s k) * v) by (field; apply Rpower_nz).
      rewrite Rabs_mult. apply Rmult_le_compat_r; [ apply Rabs_pos | exact C ].
  - pose proof (Hb (avals x) (avals y) false _ L (ex_intro _ r (conj eq_refl E))) as ->.
    unfold comov in Hv; rewrite Ey, ?Fy in Hv.
    unfold phys, lcf in *; cbn [acm acf avals] in *; rewrite Ex, ?Fx in Hu.
    rewrite nth_error_map in Hv. destruct (nth_error (avals y) i) as [yi|] eqn:Hy; [ | discriminate ].
    cbn in Hv. injection Hv as <-.
    eexists; split.
    + apply (map2_nth _ _ _ Rplus _ _ _ _ _ Hu Hy).
    + replace (u + yi - (u + Rpower s k * (yi / Rpower s k))) with 0 by (field; apply Rpower_nz).
      rewrite Rabs_R0. apply Rmult_le_pos; [ | apply Rabs_pos ].
      pose proof (Rpower_pos s k); lra.
Qed.

(** * A comoving operand with a non-convertible one *)
Record fixed_arr (s k : R) (y : carr) : Prop := mkfixed {
  f_cf : acf y = Some (mkcf (Some k) (Some s));
  f_cm : acm y = Some false;
  f_vt : avt y = false
}.

Lemma mixed_lr : forall f h x y cx cy,
  acf x = Some cx -> acf y = Some cy ->
  acm x = Some true -> acm y = Some false -> avt y = false -> avt x = true ->
  exists cp, forall rcf, h (Some cx) (Some cy) = Ok rcf ->
    ufunc2 f h (OArr x) (OArr y)
    = do v <- broadcast f (avals x) (avals y); Ok (mkarr v rcf (Some false) false cp).
Proof.
  intros f h x y cx cy Fx Fy Mx My Vy Vx.
  eexists. intros rcf Hh.
  unfold ufunc2, prepare. cbn [map op_cm op_cf op_vt filter fst snd forallb existsb].
  rewrite Mx, My, Vx, Vy. cbn [is_true is_false is_none andb orb negb forallb existsb coerce map].
  rewrite Mx, My. cbn [is_true]. unfold to_physical, convert_to_physical. rewrite My.
  rewrite andb_false_r. cbn [bind all_ok p_args p_cm p_vt p_comp op_vals].
  rewrite Fx, Fy, Hh. reflexivity.
Qed.

Lemma mixed_rl : forall f h x y cx cy,
  acf x = Some cx -> acf y = Some cy ->
  acm x = Some true -> acm y = Some false -> avt y = false -> avt x = true ->
  exists cp, forall rcf, h (Some cy) (Some cx) = Ok rcf ->
    ufunc2 f h (OArr y) (OArr x)
    = do v <- broadcast f (avals y) (avals x); Ok (mkarr v rcf (Some false) false cp).
Proof.
  intros f h x y cx cy Fx Fy Mx My Vy Vx.
  eexists. intros rcf Hh.
  unfold ufunc2, prepare. cbn [map op_cm op_cf op_vt filter fst snd forallb existsb].
  rewrite Mx, My, Vx, Vy. cbn [is_true is_false is_none andb orb negb forallb existsb coerce map].
  rewrite Mx, My. cbn [is_true]. unfold to_physical, convert_to_physical. rewrite My.
  rewrite andb_false_r. cbn [bind all_ok p_args p_cm p_vt p_comp op_vals].
  rewrite Fx, Fy, Hh. reflexivity.
Qed.

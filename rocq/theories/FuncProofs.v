(** Lemmas about the wrapped numpy functions. *)
From Coq Require Import List ZArith Bool Reals Lra Lia.
From Verif Require Import Base BaseLemmas CosmoModel CosmoSpec CosmoProofs FuncModel FuncSpec.
Import ListNotations.
Open Scope R_scope.

(** * The preparation of convertible arguments *)
Definition arrs (ops : list operand) : list carr :=
  flat_map (fun o => match o with OArr x => [x] | OPlain _ => [] end) ops.
Definition frame (ops : list operand) : option bool :=
  match arrs ops with [] => None | l => Some (existsb (fun x => is_true (acm x)) l) end.
Definition mixed (ops : list operand) : bool :=
  existsb (fun x => is_true (acm x)) (arrs ops) && existsb (fun x => is_false (acm x)) (arrs ops).
Definition op_comov (o : operand) : list R :=
  match o with OArr x => comov x | OPlain v => v end.
Definition in_frame (fr : option bool) (o : operand) : list R :=
  match fr with Some true => op_comov o | _ => op_phys o end.

Lemma arrs_app : forall a b, arrs (a ++ b) = arrs a ++ arrs b.
Proof. intros; unfold arrs; apply flat_map_app. Qed.
Lemma cms_arrs : forall ops, map snd (filter fst (map op_cm ops)) = map acm (arrs ops).
Proof. induction ops as [|[x|v] t IH]; cbn; [reflexivity | f_equal; exact IH | exact IH]. Qed.

Definition conv (x : carr) : Prop := exists s k, good s k x.
Lemma sized_conv : forall s ops ks, Forall2 (sized s) ops ks -> Forall conv (arrs ops).
Proof.
  intros s ops ks H. induction H as [|o k ops ks [x j G|v] _ IH]; cbn; [constructor| |exact IH].
  constructor; [exists s, j; exact G | exact IH].
Qed.
Lemma conv_cm : forall x, conv x -> acm x <> None.
Proof. intros x (s & k & G). apply (g_cm _ _ _ G). Qed.
Lemma conv_vt : forall x, conv x -> avt x = true.
Proof. intros x (s & k & G). apply (g_vt _ _ _ G). Qed.

Lemma op_vt_arrs : forall ops, Forall conv (arrs ops) -> forallb op_vt ops = true.
Proof.
  induction ops as [|[x|v] t IH]; intro H; cbn in *; [reflexivity| |auto].
  inversion H; subst. rewrite (conv_vt x) by assumption. cbn. auto.
Qed.
Lemma not_protected : forall ops, Forall conv (arrs ops) -> existsb protected ops = false.
Proof.
  induction ops as [|[x|v] t IH]; intro H; cbn in *; [reflexivity| |auto].
  inversion H; subst. rewrite (conv_vt x) by assumption. cbn. auto.
Qed.
Lemma none_none : forall l, Forall conv l -> existsb is_none (map acm l) = false.
Proof.
  induction l as [|x t IH]; intro H; cbn; [reflexivity|]. inversion H; subst.
  pose proof (conv_cm x H2). destruct (acm x); [|congruence]. cbn. auto.
Qed.
Lemma not_all_none : forall x l, conv x -> forallb is_none (map acm (x :: l)) = false.
Proof. intros x l H. cbn. pose proof (conv_cm x H). destruct (acm x); [reflexivity|congruence]. Qed.

Lemma all_true_not_false : forall l, Forall conv l ->
  forallb is_true (map acm l) = negb (existsb (fun x => is_false (acm x)) l).
Proof.
  induction l as [|x t IH]; intro H; cbn; [reflexivity|]. inversion H; subst.
  pose proof (conv_cm x H2) as C. rewrite IH by assumption.
  destruct (acm x) as [[|]|]; cbn; [reflexivity|reflexivity|congruence].
Qed.
Lemma all_false_not_true : forall l, Forall conv l ->
  forallb is_false (map acm l) = negb (existsb (fun x => is_true (acm x)) l).
Proof.
  induction l as [|x t IH]; intro H; cbn; [reflexivity|]. inversion H; subst.
  pose proof (conv_cm x H2) as C. rewrite IH by assumption.
  destruct (acm x) as [[|]|]; cbn; [reflexivity|reflexivity|congruence].
Qed.

Definition tocom (o : operand) : operand :=
  match o with
  | OArr x => if is_true (acm x) then OArr x else OArr (set_cm x true (comov x))
  | OPlain v => OPlain v
  end.
Lemma coerce_conv : forall o, Forall conv (arrs [o]) -> coerce to_comoving o = Ok (tocom o).
Proof.
  intros [x|v] H; cbn in *; [|reflexivity]. inversion H; subst.
  destruct (is_true (acm x)); [reflexivity|]. destruct H2 as (s & k & G).
  rewrite (to_c_good s k x G). reflexivity.
Qed.
Lemma all_coerce : forall ops, Forall conv (arrs ops) ->
  all_ok (map (coerce to_comoving) ops) = Ok (map tocom ops).
Proof.
  induction ops as [|o t IH]; intro H; [reflexivity|]. cbn [map all_ok].
  change (arrs (o :: t)) with (arrs ([o] ++ t)) in H. rewrite arrs_app in H. apply Forall_app in H.
  destruct H as [H1 H2]. rewrite coerce_conv by exact H1. rewrite IH by exact H2. reflexivity.
Qed.
Lemma comov_of_c : forall x, acm x = Some true -> comov x = avals x.
Proof. intros x E. unfold comov. rewrite E. reflexivity. Qed.
Lemma phys_of_p : forall x, acm x <> Some true -> phys x = avals x.
Proof. intros x E. unfold phys. destruct (acm x) as [[|]|]; [congruence|reflexivity|reflexivity]. Qed.

Lemma numbers_tocom : forall ops, numbers (map tocom ops) = map op_comov ops.
Proof.
  intros ops. unfold numbers. rewrite map_map. apply map_ext. intros [x|v]; cbn; [|reflexivity].
  destruct (acm x) as [[|]|] eqn:E; cbn; try reflexivity. symmetry. apply comov_of_c. exact E.
Qed.
Lemma numbers_phys : forall ops, existsb (fun x => is_true (acm x)) (arrs ops) = false ->
  numbers ops = map op_phys ops.
Proof.
  induction ops as [|[x|v] t IH]; intro H; cbn in *; [reflexivity| |f_equal; auto].
  apply orb_false_iff in H. destruct H as [H1 H2]. f_equal; [|auto].
  symmetry. apply phys_of_p. intro E. rewrite E in H1. discriminate.
Qed.
Lemma numbers_comov : forall ops, Forall conv (arrs ops) ->
  existsb (fun x => is_false (acm x)) (arrs ops) = false -> numbers ops = map op_comov ops.
Proof.
  induction ops as [|[x|v] t IH]; intros C H; cbn in *; [reflexivity| |f_equal; auto].
  apply orb_false_iff in H. destruct H as [H1 H2]. inversion C; subst. f_equal; [|auto].
  symmetry. apply comov_of_c. pose proof (conv_cm x H3). destruct (acm x) as [[|]|]; [reflexivity|discriminate|congruence].
Qed.

Definition comp_of (ops : list operand) : comp :=
  match map op_comp ops with
  | [] => CNone
  | c :: cs => if forallb (comp_eqb c) cs then c else CNone
  end.

(** What [_prepare_array_func_args] does to convertible arrays, whatever their
    exponents and scale factors. *)
Lemma prepare_conv : forall args kw, Forall conv (arrs (args ++ kw)) ->
  exists args' kw',
    prepare_kw true args kw
      = Ok (mkprepk args' kw' (map op_cf args) (map op_cf kw) (frame (args ++ kw)) true
                    (comp_of (args ++ kw)) (mixed (args ++ kw)))
    /\ numbers args' = map (in_frame (frame (args ++ kw))) args
    /\ numbers kw' = map (in_frame (frame (args ++ kw))) kw
    /\ (mixed (args ++ kw) = false -> args' = args /\ kw' = kw).
Proof.
  intros args kw H. unfold prepare_kw. rewrite cms_arrs.
  assert (Ha : Forall conv (arrs args)) by (rewrite arrs_app in H; apply Forall_app in H; tauto).
  assert (Hk : Forall conv (arrs kw)) by (rewrite arrs_app in H; apply Forall_app in H; tauto).
  rewrite (op_vt_arrs _ H).
  assert (F : forall (P : carr -> bool) ops1 ops2, existsb P (arrs (ops1 ++ ops2)) = existsb P (arrs ops1) || existsb P (arrs ops2))
    by (intros; rewrite arrs_app; apply existsb_app).
  fold (comp_of (args ++ kw)).
  remember (arrs (args ++ kw)) as L eqn:E. symmetry in E.
  assert (FR : frame (args ++ kw) = match L with [] => None | l => Some (existsb (fun x => is_true (acm x)) l) end)
    by (unfold frame; rewrite E; destruct L; reflexivity).
  assert (MX : mixed (args ++ kw) = existsb (fun x => is_true (acm x)) L && existsb (fun x => is_false (acm x)) L)
    by (unfold mixed; rewrite E; reflexivity).
  rewrite FR, MX. clear FR MX. destruct L as [|x l].
  - cbn [map existsb andb]. exists args, kw. split; [reflexivity|].
    rewrite arrs_app in E. apply app_eq_nil in E. destruct E as [E1 E2].
    split; [|split; [|auto]]; (rewrite numbers_phys; [apply map_ext; intros []; reflexivity|]).
    + rewrite E1; reflexivity.
    + rewrite E2; reflexivity.
  - rewrite (all_true_not_false _ H), (all_false_not_true _ H), (none_none _ H).
    assert (Cx : conv x) by (inversion H; assumption).
    rewrite (not_all_none x l Cx).
    replace (match map acm (x :: l) with [] => _ | _ => _ end)
      with (if negb (existsb (fun x => is_false (acm x)) (x :: l))
            then Ok (mkprepk args kw (map op_cf args) (map op_cf kw) (Some true) true (comp_of (args ++ kw)) false)
            else if negb (existsb (fun x => is_true (acm x)) (x :: l))
            then Ok (mkprepk args kw (map op_cf args) (map op_cf kw) (Some false) true (comp_of (args ++ kw)) false)
            else if true && negb (existsb protected args)
            then do args' <- all_ok (map (coerce to_comoving) args);
                 do kw' <- all_ok (map (coerce to_comoving) kw);
                 Ok (mkprepk args' kw' (map op_cf args) (map op_cf kw) (Some true) true (comp_of (args ++ kw)) true)
            else do args' <- all_ok (map (coerce to_physical) args);
                 do kw' <- all_ok (map (coerce to_physical) kw);
                 Ok (mkprepk args' kw' (map op_cf args) (map op_cf kw) (Some false) true (comp_of (args ++ kw)) true))
      by reflexivity.
    destruct (existsb (fun x => is_false (acm x)) (x :: l)) eqn:EF; cbn [negb].
    + destruct (existsb (fun x => is_true (acm x)) (x :: l)) eqn:ET; cbn [negb andb].
      * rewrite (not_protected _ Ha). cbn [negb andb].
        rewrite (all_coerce _ Ha), (all_coerce _ Hk). cbn [bind].
        exists (map tocom args), (map tocom kw).
        split; [reflexivity|]. split; [apply numbers_tocom|]. split; [apply numbers_tocom|discriminate].
      * exists args, kw. cbn [andb]. split; [reflexivity|].
        rewrite <- E, F in ET. apply orb_false_iff in ET. destruct ET as [T1 T2].
        split; [apply (numbers_phys args T1)|]. split; [apply (numbers_phys kw T2)|auto].
    + assert (ET : existsb (fun x => is_true (acm x)) (x :: l) = true).
      { cbn in EF |- *. apply orb_false_iff in EF. destruct EF as [EF _].
        pose proof (conv_cm x Cx). destruct (acm x) as [[|]|]; [reflexivity|discriminate|congruence]. }
      exists args, kw. rewrite ET. cbn [andb]. split; [reflexivity|].
      rewrite <- E, F in EF. apply orb_false_iff in EF. destruct EF as [T1 T2].
      split; [apply (numbers_comov args Ha T1)|]. split; [apply (numbers_comov kw Hk T2)|auto].
Qed.

(** * Scaling *)
Lemma Rpower_inv : forall s k, 0 < s -> Rpower (/ s) k = / Rpower s k.
Proof. intros s k H. unfold Rpower. rewrite ln_Rinv by exact H. rewrite <- exp_Ropp. f_equal. ring. Qed.
Lemma scale_1 : forall v, scale 1 v = v.
Proof. intros; unfold scale. rewrite <- (map_id v) at 2. apply map_ext; intros; ring. Qed.
Lemma scale_scale : forall c d v, scale c (scale d v) = scale (c * d) v.
Proof. intros; unfold scale. rewrite map_map. apply map_ext; intros; ring. Qed.
Lemma phys_comov : forall s k x, good s k x -> phys x = scale (Rpower s k) (comov x).
Proof.
  intros s k [v c cm vt cp] [H1 H2 H3]; cbn in *; subst. unfold phys, comov, scale; cbn.
  destruct cm as [[|]|]; [reflexivity| |congruence].
  rewrite map_map. rewrite <- (map_id v) at 1. apply map_ext; intro w. field. apply Rpower_nz.
Qed.
Lemma Rpower_0r : forall s, Rpower s 0 = 1.
Proof. intros; unfold Rpower. rewrite Rmult_0_l. apply exp_0. Qed.
Lemma wscale_comov : forall s ops ks, Forall2 (sized s) ops ks ->
  map op_phys ops = wscale s ks (map op_comov ops).
Proof.
  intros s ops ks H. induction H as [|o k ops ks S _ IH]; cbn [map wscale]; [reflexivity|].
  rewrite IH. f_equal. destruct S as [x k G|v]; cbn [op_phys op_comov].
  - apply phys_comov; exact G.
  - rewrite Rpower_0r, scale_1. reflexivity.
Qed.

Lemma F2_length : forall A B (P : A -> B -> Prop) l m, Forall2 P l m -> length l = length m.
Proof. intros A B P l m H. induction H; cbn; congruence. Qed.

Lemma stands_ok : forall s e v b cp w, 0 < s ->
  w = (if b : bool then scale (Rpower s e) v else v) ->
  stands s e (Ok (mkarr v (lcf s e) (Some b) true cp)) (Ok w).
Proof.
  intros s e v b cp w _ E. split.
  - constructor; cbn; (reflexivity || discriminate).
  - rewrite E. unfold phys, lcf; cbn. destruct b; reflexivity.
Qed.

(** The values of any wrapper whose label is right. *)
Lemma call_stands : forall s f h args kw aks kks e, 0 < s ->
  Forall2 (sized s) args aks -> Forall2 (sized s) kw kks ->
  h (map op_cf args) (map op_cf kw) = Ok (lcf s e) ->
  frame (args ++ kw) <> None ->
  homogeneous f aks kks e ->
  stands s e (call f h args kw) (f (map op_phys args) (map op_phys kw)).
Proof.
  intros s f h args kw aks kks e Hs Ha Hk Hh Fr Hf.
  assert (C : Forall conv (arrs (args ++ kw))).
  { rewrite arrs_app. apply Forall_app. split; eapply sized_conv; eassumption. }
  destruct (prepare_conv args kw C) as (args' & kw' & P & Na & Nk & _).
  unfold call. rewrite P. cbn [bind k_cfs k_kwcfs k_args k_kw]. rewrite Hh. cbn [bind].
  rewrite Na, Nk. unfold label. cbn [k_cm k_vt k_comp].
  destruct (frame (args ++ kw)) as [[|]|]; [| |congruence].
  - change (map (in_frame (Some true)) args) with (map op_comov args).
    change (map (in_frame (Some true)) kw) with (map op_comov kw).
    rewrite (wscale_comov s args aks Ha), (wscale_comov s kw kks Hk).
    rewrite Hf; [|exact Hs|rewrite map_length; eapply F2_length; eassumption|rewrite map_length; eapply F2_length; eassumption].
    destruct (f (map op_comov args) (map op_comov kw)); cbn [bind rscale]; [|reflexivity].
    apply stands_ok; [exact Hs|reflexivity].
  - change (map (in_frame (Some false)) args) with (map op_phys args).
    change (map (in_frame (Some false)) kw) with (map op_phys kw).
    destruct (f (map op_phys args) (map op_phys kw)); cbn [bind rscale]; [|reflexivity].
    apply stands_ok; [exact Hs|reflexivity].
Qed.


Definition labels (s k : R) (c : option cf) : Prop := c = lcf s k \/ (c = None /\ k = 0).
Lemma sized_labels : forall s o k, sized s o k -> labels s k (op_cf o).
Proof. intros s o k [x j G|v]; [left; apply (g_cf _ _ _ G) | right; auto]. Qed.
Lemma F2_labels : forall s ops ks, Forall2 (sized s) ops ks -> Forall2 (labels s) ks (map op_cf ops).
Proof. intros s ops ks H. induction H; cbn; constructor; auto. apply sized_labels; assumption. Qed.

Lemma l_keep : forall s k c, labels s k c -> keep c = Ok None \/ keep c = Ok (lcf s k).
Proof. intros s k c [->|[-> ->]]; [right|left]; reflexivity. Qed.
Lemma l_preserve2 : forall s k c d, labels s k c -> labels s k d ->
  exists r, h_preserve2 c d = Ok r /\ labels s k r.
Proof.
  intros s k c d [->|[-> E]] [->|[-> E']]; cbn [h_preserve2 lcf]; rewrite ?cf_eq_same; cbn [negb];
    eexists; (split; [reflexivity|]); unfold labels, lcf; auto.
Qed.
Lemma l_multiply2 : forall s j k c d, labels s j c -> labels s k d ->
  exists r, h_multiply2 c d = Ok r /\ labels s (j + k) r.
Proof.
  intros s j k c d [->|[-> ->]] [->|[-> ->]].
  - rewrite h_mul_ok. eexists; split; [reflexivity|left; reflexivity].
  - eexists; split; [reflexivity|]. left. apply lcf_eq. ring.
  - eexists; split; [reflexivity|]. left. apply lcf_eq. ring.
  - eexists; split; [reflexivity|]. right; split; [reflexivity|ring].
Qed.
Lemma l_power : forall s k p c, labels s k c -> exists r, h_power c None p = Ok r /\ labels s (k * p) r.
Proof.
  intros s k p c [->|[-> ->]].
  - rewrite h_power_ok. eexists; split; [reflexivity|left; reflexivity].
  - eexists; split; [reflexivity|]. right; split; [reflexivity|ring].
Qed.
Lemma labels_eq : forall s j k c, j = k -> labels s j c -> labels s k c.
Proof. intros; subst; assumption. Qed.
Lemma labels_or : forall s k (r : res (option cf)), (exists c, r = Ok c /\ labels s k c) ->
  r = Ok None \/ r = Ok (lcf s k).
Proof. intros s k r (c & -> & [->|[-> _]]); auto. Qed.

Lemma rule_right : forall s n args kw aks kks e,
  Forall2 (sized s) args aks -> Forall2 (sized s) kw kks ->
  pattern (kind_of n) aks kks e -> exceptional n = false ->
  rule_of n (map op_cf args) (map op_cf kw) = Ok None
  \/ rule_of n (map op_cf args) (map op_cf kw) = Ok (lcf s e).
Proof.
  intros s n args kw aks kks e Ha Hk P X. apply labels_or.
  apply F2_labels in Ha. apply F2_labels in Hk.
  destruct n; try discriminate X; cbn [kind_of pattern] in P; try contradiction;
    repeat match goal with H : exists _, _ |- _ => destruct H end;
    repeat match goal with H : _ /\ _ |- _ => destruct H end; subst aks kks e;
    repeat match goal with H : Forall2 (labels s) (_ :: _) _ |- _ => inversion H; clear H; subst end;
    cbn [rule_of first two kwfirst];
    try (eexists; split; [reflexivity|assumption]);
    try (match goal with H : labels s ?k ?c |- exists r, h_reciprocal ?c = _ /\ _ =>
           destruct (l_power s k (-1) c H) as (r & E & L); exists r; split; [exact E|];
           eapply labels_eq; [|exact L]; ring end);
    try (match goal with H : labels s ?j ?c, H' : labels s ?k ?d |- exists r, h_multiply2 ?c ?d = _ /\ _ =>
           apply l_multiply2; assumption end);
    try (apply l_preserve2; assumption);
    try (match goal with H : labels s ?k ?d |- exists r, h_square ?d = _ /\ _ =>
           destruct (l_power s k 2 d H) as (r & E & L); exists r; split; [exact E|];
           eapply labels_eq; [|exact L]; ring end);
    try (match goal with H : labels s ?k ?d, H' : labels s ?j ?c |- exists r, h_divide ?d ?c = _ /\ _ =>
           unfold h_divide, h_reciprocal;
           destruct (l_power s j (-1) c H') as (r1 & E1 & L1); rewrite E1; cbn [bind];
           destruct (l_multiply2 s k (j * -1) d r1 H L1) as (r2 & E2 & L2); exists r2; split; [exact E2|];
           eapply labels_eq; [|exact L2]; ring end);
    try (match goal with H1 : labels s ?k ?c, H2 : labels s ?k ?d, H3 : labels s ?k ?f |- exists r, h_preserve [?c; ?d; ?f] = _ /\ _ =>
           unfold h_preserve, reduce; cbn [reduce_from];
           destruct (l_preserve2 s k c d H1 H2) as (r1 & E1 & L1); rewrite E1; cbn [bind];
           destruct (l_preserve2 s k r1 f L1 H3) as (r2 & E2 & L2); rewrite E2; cbn [bind];
           exists r2; split; [reflexivity|exact L2] end).
Qed.

Lemma frame_none : forall ops, frame ops = None -> Forall (eq None) (map op_cf ops).
Proof.
  induction ops as [|[x|v] t IH]; intro H; cbn; [constructor|discriminate|].
  constructor; [reflexivity|]. apply IH. exact H.
Qed.
Lemma rule_plain : forall n cfs kws c, exceptional n = false ->
  Forall (eq None) cfs -> Forall (eq None) kws -> rule_of n cfs kws <> Ok (Some c).
Proof.
  intros n cfs kws c X Ha Hk.
  destruct n; try discriminate X; cbn [rule_of]; unfold first, two, kwfirst;
    repeat (match goal with
            | H : Forall (eq None) ?l |- context [match ?l with _ => _ end] =>
                destruct H; [try discriminate|]; subst end);
    cbn; discriminate.
Qed.
Lemma label_frame : forall n args kw c, exceptional n = false ->
  rule_of n (map op_cf args) (map op_cf kw) = Ok (Some c) -> frame (args ++ kw) <> None.
Proof.
  intros n args kw c X R F. apply frame_none in F. rewrite map_app in F. apply Forall_app in F.
  destruct F as [Fa Fk]. apply (rule_plain n _ _ c X Fa Fk R).
Qed.

Lemma npcall_stands : forall s n f args kw aks kks e, 0 < s ->
  Forall2 (sized s) args aks -> Forall2 (sized s) kw kks ->
  pattern (kind_of n) aks kks e -> exceptional n = false ->
  rule_of n (map op_cf args) (map op_cf kw) <> Ok None ->
  homogeneous f aks kks e ->
  stands s e (npcall n f args kw) (f (map op_phys args) (map op_phys kw)).
Proof.
  intros s n f args kw aks kks e Hs Ha Hk P X L Hf.
  destruct (rule_right s n args kw aks kks e Ha Hk P X) as [R|R]; [congruence|].
  apply (call_stands s f (rule_of n) args kw aks kks e); try assumption.
  eapply label_frame; eassumption.
Qed.

(** A function of degree [e] whose result is labelled with exponent [e']. *)
Lemma call_mislabelled : forall s f h args kw aks kks e e', 0 < s ->
  Forall2 (sized s) args aks -> Forall2 (sized s) kw kks ->
  h (map op_cf args) (map op_cf kw) = Ok (lcf s e') ->
  homogeneous f aks kks e ->
  (frame (args ++ kw) = Some true ->
     stands s e' (call f h args kw) (rscale (Rpower s (e' - e)) (f (map op_phys args) (map op_phys kw))))
  /\ (frame (args ++ kw) = Some false ->
     stands s e' (call f h args kw) (f (map op_phys args) (map op_phys kw))).
Proof.
  intros s f h args kw aks kks e e' Hs Ha Hk Hh Hf.
  assert (C : Forall conv (arrs (args ++ kw))).
  { rewrite arrs_app. apply Forall_app. split; eapply sized_conv; eassumption. }
  destruct (prepare_conv args kw C) as (args' & kw' & P & Na & Nk & _).
  unfold call. rewrite P. cbn [bind k_cfs k_kwcfs k_args k_kw]. rewrite Hh. cbn [bind].
  rewrite Na, Nk. unfold label. cbn [k_cm k_vt k_comp].
  split; intro Fr; rewrite Fr.
  - change (map (in_frame (Some true)) args) with (map op_comov args).
    change (map (in_frame (Some true)) kw) with (map op_comov kw).
    rewrite (wscale_comov s args aks Ha), (wscale_comov s kw kks Hk).
    rewrite Hf; [|exact Hs|rewrite map_length; eapply F2_length; eassumption|rewrite map_length; eapply F2_length; eassumption].
    destruct (f (map op_comov args) (map op_comov kw)); cbn [bind rscale]; [|reflexivity].
    apply stands_ok; [exact Hs|]. rewrite scale_scale, <- Rpower_plus. f_equal. f_equal. ring.
  - change (map (in_frame (Some false)) args) with (map op_phys args).
    change (map (in_frame (Some false)) kw) with (map op_phys kw).
    destruct (f (map op_phys args) (map op_phys kw)); cbn [bind rscale]; [|reflexivity].
    apply stands_ok; [exact Hs|reflexivity].
Qed.

(** * Scaling of some numpy functions *)
Lemma sum_of_cons : forall a l, sum_of (a :: l) = a + sum_of l.
Proof. reflexivity. Qed.
Lemma sum_of_scale : forall c l, sum_of (scale c l) = c * sum_of l.
Proof.
  intros c l. induction l as [|a l IH]; unfold scale; cbn [map]; [unfold sum_of; cbn; ring|].
  rewrite !sum_of_cons. unfold scale in IH. rewrite IH. ring.
Qed.
Lemma scale_length : forall c v, length (scale c v) = length v.
Proof. intros; apply map_length. Qed.
Lemma nth_scale : forall c v i, nth i (scale c v) 0 = c * nth i v 0.
Proof.
  intros c v i. unfold scale. destruct (Nat.lt_ge_cases i (length v)) as [H|H].
  - rewrite (nth_indep _ 0 (c * 0)) by (rewrite map_length; exact H). apply (map_nth (fun u => c * u)).
  - rewrite !nth_overflow; [ring|exact H|rewrite map_length; exact H].
Qed.
Lemma sum_of_map_scale : forall A c (g h : A -> R) l, (forall x, g x = c * h x) ->
  sum_of (map g l) = c * sum_of (map h l).
Proof. intros A c g h l H. induction l as [|a l IH]; cbn [map]; [unfold sum_of; cbn; ring|]. rewrite !sum_of_cons, IH, H. ring. Qed.

Lemma scale_one : forall c x, scale c [x] = [c * x].
Proof. reflexivity. Qed.
Ltac lists :=
  repeat match goal with
  | H : length ?l = _ |- _ =>
      is_var l; destruct l as [|? l]; cbn [length] in H; try discriminate H; try (injection H as H)
  end.

Lemma hom_dot : forall j k, homogeneous v_dot [j; k] [] (j + k).
Proof.
  intros j k t avs kvs Ht La Lk. lists. cbn [wscale v_dot]. rewrite !scale_length.
  destruct (Nat.eqb (length l) (length l0)); [|reflexivity]. cbn [rscale]. f_equal. rewrite scale_one. f_equal.
  rewrite Rpower_plus. generalize (Rpower t j) (Rpower t k). intros a b. clear. revert l0.
  induction l as [|x l IH]; intros [|y m]; unfold scale; cbn [map map2]; try (unfold sum_of; cbn; ring).
  rewrite !sum_of_cons. unfold scale in IH. rewrite IH. ring.
Qed.
Lemma hom_outer : forall j k, homogeneous v_outer [j; k] [] (j + k).
Proof.
  intros j k t avs kvs Ht La Lk. lists. cbn [wscale v_outer rscale]. f_equal.
  rewrite Rpower_plus. generalize (Rpower t j) (Rpower t k). intros a b. clear.
  induction l as [|x l IH]; [reflexivity|]. cbn [flat_map scale map].
  unfold scale in IH |- *. rewrite IH. rewrite map_app, !map_map. f_equal. apply map_ext; intros; ring.
Qed.
Lemma hom_cross : forall j k, homogeneous v_cross [j; k] [] (j + k).
Proof.
  intros j k t avs kvs Ht La Lk. lists. cbn [wscale v_cross].
  rewrite Rpower_plus. generalize (Rpower t j) (Rpower t k). intros a b.
  destruct l as [|x0 [|x1 [|x2 [|x3 l]]]]; try reflexivity; cbn [scale map];
    destruct l0 as [|y0 [|y1 [|y2 [|y3 l0]]]]; try reflexivity; cbn [scale map rscale].
  unfold scale. cbn [map]. repeat (f_equal; try ring).
Qed.
Lemma hom_convolve : forall j k, homogeneous v_convolve [j; k] [] (j + k).
Proof.
  intros j k t avs kvs Ht La Lk. lists. cbn [wscale v_convolve rscale]. f_equal. rewrite !scale_length.
  unfold scale at 3. rewrite map_map. apply map_ext. intro n.
  apply sum_of_map_scale. intro i. rewrite !nth_scale, Rpower_plus. ring.
Qed.
Lemma hom_norm : forall k, homogeneous v_norm [k] [] k.
Proof.
  intros k t avs kvs Ht La Lk. lists. cbn [wscale v_norm rscale]. f_equal. rewrite scale_one. f_equal.
  unfold scale. rewrite map_map.
  rewrite (sum_of_map_scale R (Rpower t k * Rpower t k) _ (fun u => u * u)) by (intro; ring).
  rewrite sqrt_mult_alt by (left; apply Rmult_lt_0_compat; apply Rpower_pos).
  rewrite sqrt_square by (left; apply Rpower_pos). reflexivity.
Qed.
Lemma diffs_scale : forall c v, diffs (scale c v) = scale c (diffs v).
Proof.
  intros c v. induction v as [|a [|b v] IH]; try reflexivity.
  unfold scale in *. cbn [map diffs] in *. rewrite IH. f_equal. ring.
Qed.
Lemma hom_diff : forall k, homogeneous v_diff [k] [] k.
Proof. intros k t avs kvs Ht La Lk. lists. cbn [wscale v_diff rscale]. rewrite diffs_scale. reflexivity. Qed.
Lemma mean_scale : forall c v, mean (scale c v) = c * mean v.
Proof. intros c v. unfold mean. rewrite sum_of_scale, scale_length. unfold Rdiv. ring. Qed.
Lemma hom_var : forall k, homogeneous v_var [k] [] (2 * k).
Proof.
  intros k t avs kvs Ht La Lk. lists. cbn [wscale v_var rscale]. f_equal. rewrite scale_one. f_equal.
  rewrite mean_scale, scale_length.
  replace (2 * k) with (k + k) by ring. rewrite Rpower_plus.
  unfold scale. rewrite map_map.
  rewrite (sum_of_map_scale R (Rpower t k * Rpower t k) _ (fun u => (u - mean l) * (u - mean l))) by (intro; ring).
  unfold Rdiv. ring.
Qed.
Lemma hom_fft : forall k, homogeneous v_fft [k] [] k.
Proof.
  intros k t avs kvs Ht La Lk. lists. cbn [wscale v_fft rscale]. f_equal. rewrite !scale_length.
  unfold scale at 3. rewrite map_app, !map_map. f_equal; apply map_ext; intro n;
    apply sum_of_map_scale; intro i; rewrite nth_scale; ring.
Qed.
Lemma pow2 : forall t k, Rpower t (2 * k) = Rpower t k * Rpower t k.
Proof. intros. rewrite <- Rpower_plus. f_equal. ring. Qed.
Lemma pow_neg : forall t k, Rpower t (- k) = / Rpower t k.
Proof. intros. apply Rpower_Ropp. Qed.
Lemma hom_inv2 : forall k, homogeneous v_inv2 [k] [] (- k).
Proof.
  intros k t avs kvs Ht La Lk. lists. cbn [wscale]. rewrite pow_neg.
  pose proof (Rpower_nz t k) as N. generalize dependent (Rpower t k). intros c N.
  destruct l as [|x0 [|x1 [|x2 [|x3 [|x4 l]]]]]; try reflexivity. unfold scale, v_inv2. cbn [map].
  replace (c * x0 * (c * x3) - c * x1 * (c * x2)) with (c * c * (x0 * x3 - x1 * x2)) by ring.
  destruct (Req_EM_T (x0 * x3 - x1 * x2) 0) as [E|E]; destruct (Req_EM_T (c * c * (x0 * x3 - x1 * x2)) 0) as [E'|E'].
  - reflexivity.
  - exfalso. apply E'. rewrite E. ring.
  - exfalso. apply Rmult_integral in E'. destruct E' as [E'|E']; [|auto]. apply Rmult_integral in E'. tauto.
  - cbn [rscale]. unfold scale. cbn [map]. do 5 (f_equal; try (field; split; assumption)).
Qed.
Lemma hom_solve2 : forall j k, homogeneous v_solve2 [j; k] [] (k - j).
Proof.
  intros j k t avs kvs Ht La Lk. lists. cbn [wscale].
  replace (Rpower t (k - j)) with (Rpower t k / Rpower t j) by (unfold Rminus; rewrite Rpower_plus, pow_neg; reflexivity).
  pose proof (Rpower_nz t j) as N. generalize dependent (Rpower t j). generalize (Rpower t k). intros d c N.
  destruct l as [|x0 [|x1 [|x2 [|x3 [|x4 l]]]]]; try reflexivity.
  destruct l0 as [|y0 [|y1 [|y2 l0]]]; try reflexivity. unfold scale, v_solve2. cbn [map].
  replace (c * x0 * (c * x3) - c * x1 * (c * x2)) with (c * c * (x0 * x3 - x1 * x2)) by ring.
  destruct (Req_EM_T (x0 * x3 - x1 * x2) 0) as [E|E]; destruct (Req_EM_T (c * c * (x0 * x3 - x1 * x2)) 0) as [E'|E'].
  - reflexivity.
  - exfalso. apply E'. rewrite E. ring.
  - exfalso. apply Rmult_integral in E'. destruct E' as [E'|E']; [|auto]. apply Rmult_integral in E'. tauto.
  - cbn [rscale]. unfold scale. cbn [map]. do 3 (f_equal; try (field; split; assumption)).
Qed.
Lemma dets_scale : forall c v, dets (scale c v) = scale (c * c) (dets v).
Proof.
  intro c. fix IH 1. intros [|x0 [|x1 [|x2 [|x3 v]]]]; try reflexivity.
  unfold scale in *. cbn [map dets]. rewrite IH. f_equal. ring.
Qed.
Lemma hom_det2 : forall k, homogeneous v_det2 [k] [] (2 * k).
Proof. intros k t avs kvs Ht La Lk. lists. cbn [wscale v_det2 rscale]. rewrite dets_scale, pow2. reflexivity. Qed.
Lemma hom_linspace : forall n k, homogeneous (v_linspace n) [k; k] [] k.
Proof.
  intros n k t avs kvs Ht La Lk. lists. cbn [wscale].
  destruct l as [|x0 [|x1 l]]; try reflexivity.
  destruct l0 as [|y0 [|y1 l0]]; try reflexivity. unfold v_linspace, scale. cbn [map rscale]. f_equal.
  unfold scale. rewrite map_map. apply map_ext. intro i. unfold Rdiv. ring.
Qed.
Lemma trapz_scale : forall c d x y, trapz (scale c x) (scale d y) = d * c * trapz x y.
Proof.
  intros c d x. induction x as [|a x IH]; intros [|u y]; try (cbn; ring);
    destruct x as [|b x]; try (cbn; ring); destruct y as [|v y]; try (cbn; ring).
  specialize (IH (v :: y)).
  change (trapz (scale c (a :: b :: x)) (scale d (u :: v :: y)))
    with ((c * b - c * a) * ((d * u + d * v) / 2) + trapz (scale c (b :: x)) (scale d (v :: y))).
  rewrite IH.
  change (trapz (a :: b :: x) (u :: v :: y)) with ((b - a) * ((u + v) / 2) + trapz (b :: x) (v :: y)). field.
Qed.
Lemma hom_trapezoid : forall j k, homogeneous v_trapezoid [j] [k] (j + k).
Proof.
  intros j k t avs kvs Ht La Lk. lists. cbn [wscale v_trapezoid rscale]. f_equal. rewrite scale_one. f_equal.
  rewrite trapz_scale, Rpower_plus. reflexivity.
Qed.
Lemma interp1_scale : forall c d u xp fp, 0 < c ->
  interp1 (c * u) (scale c xp) (scale d fp) = d * interp1 u xp fp.
Proof.
  intros c d u xp fp Hc. revert fp. induction xp as [|a xp IH]; intros [|p fp]; try (cbn; ring).
  1: destruct xp; cbn; ring.
  destruct xp as [|b xp]; [cbn; ring|]. destruct fp as [|q fp]; [cbn; ring|].
  specialize (IH (q :: fp)). unfold scale in *. cbn [map interp1] in *.
  destruct (Rle_dec u b) as [L|L]; destruct (Rle_dec (c * u) (c * b)) as [L'|L'];
    try (exfalso; apply L'; apply Rmult_le_compat_l; lra);
    try (exfalso; apply L; apply Rmult_le_reg_l with c; assumption).
  - destruct (Rle_dec u a) as [M|M]; destruct (Rle_dec (c * u) (c * a)) as [M'|M'];
      try (exfalso; apply M'; apply Rmult_le_compat_l; lra);
      try (exfalso; apply M; apply Rmult_le_reg_l with c; assumption).
    + reflexivity.
    + unfold Rdiv. replace (c * b - c * a) with (c * (b - a)) by ring.
      rewrite Rinv_mult. field_simplify_eq; [|split; lra]. ring.
  - exact IH.
Qed.
Lemma hom_interp : forall j k, homogeneous v_interp [j; j; k] [] k.
Proof.
  intros j k t avs kvs Ht La Lk. lists. cbn [wscale v_interp rscale]. f_equal.
  change (scale (Rpower t j) l) with (map (fun u => Rpower t j * u) l).
  change (scale (Rpower t k) (map (fun u => interp1 u l0 l1) l))
    with (map (fun u => Rpower t k * u) (map (fun u => interp1 u l0 l1) l)).
  rewrite !map_map. apply map_ext. intro u. apply interp1_scale. apply Rpower_pos.
Qed.
Lemma hom_where : forall cond k, homogeneous (v_where cond) [0; k; k] [] k.
Proof.
  intros cond k t avs kvs Ht La Lk. lists. cbn [wscale v_where rscale]. f_equal.
  unfold scale at 3. rewrite map_map. apply map_ext. intro i. rewrite !nth_scale. destruct (nth i cond false); reflexivity.
Qed.
Lemma RminRmult : forall p q r, 0 <= r -> r * Rmin p q = Rmin (r * p) (r * q).
Proof.
  intros p q r H. unfold Rmin. destruct (Rle_dec p q) as [L|L]; destruct (Rle_dec (r * p) (r * q)) as [M|M]; try reflexivity.
  - exfalso. apply M. apply Rmult_le_compat_l; assumption.
  - destruct (Rle_lt_or_eq_dec 0 r H) as [P|P]; [|rewrite <- P; ring].
    exfalso. apply L. apply Rmult_le_reg_l with r; assumption.
Qed.
Lemma hom_clip : forall k, homogeneous v_clip [k] [k; k] k.
Proof.
  intros k t avs kvs Ht La Lk.
  destruct avs as [|a [|? ?]]; try discriminate La. destruct kvs as [|lo [|hi [|? ?]]]; try discriminate Lk.
  cbn [wscale]. destruct lo as [|x0 [|x1 lo]]; try reflexivity.
  destruct hi as [|y0 [|y1 hi]]; try reflexivity. unfold v_clip, scale. cbn [map rscale]. f_equal.
  unfold scale. rewrite !map_map. apply map_ext. intro u.
  rewrite RmaxRmult, RminRmult by (left; apply Rpower_pos). reflexivity.
Qed.
Lemma hom_insert : forall i k, homogeneous (v_insert i) [k; 0; k] [] k.
Proof.
  intros i k t avs kvs Ht La Lk. lists. cbn [wscale v_insert rscale]. f_equal.
  unfold scale. rewrite !map_app, firstn_map, skipn_map. reflexivity.
Qed.

(** Constructors of arrays and quantities (C86); conversions with units, pickling (C87). *)
From Coq Require Import String List ZArith Bool Reals Lra Lia.
From Verif Require Import Base BaseLemmas CosmoModel CosmoSpec CosmoProofs CtorModel CtorSpec.
Import ListNotations.
Open Scope R_scope.

(** * Lemmas *)

Lemma number_iff : forall c f, number_of c f <-> a_factor c = Some f.
Proof.
  intros [k s] f. split.
  - intro H. inversion H; subst. reflexivity.
  - unfold a_factor. cbn [cexpr cscale]. destruct k as [k|], s as [s|]; try discriminate.
    intro H. injection H as <-. constructor.
Qed.

Lemma alike_iff : forall c d, cf_eq c d = true <-> alike c d.
Proof.
  intros c d. unfold cf_eq, alike. rewrite andb_true_iff, oreqb_true.
  assert (N : forall c, (exists f, number_of c f) <-> a_factor c <> None).
  { intro e. split.
    - intros (f & H). apply number_iff in H. congruence.
    - intro H. destruct (a_factor e) as [f|] eqn:E; [|congruence]. exists f. apply number_iff. exact E. }
  rewrite !N.
  assert (I : forall f g, isclose f g = true <-> Rabs (f - g) <= 1 / 10 ^ 8 + 1 / 10 ^ 6 * Rabs g).
  { intros f g. unfold isclose. rewrite Rleb_true. reflexivity. }
  assert (P : forall g, number_of d g -> Rabs g = g).
  { intros g H. inversion H; subst. apply Rabs_right. left. apply Rpower_pos. }
  split; intros (S & H); (split; [exact S|]).
  - destruct (a_factor c) as [f|] eqn:Ec, (a_factor d) as [g|] eqn:Ed; try discriminate.
    + split; [split; congruence|]. intros f' g' Hf Hg. pose proof (P g' Hg) as Q. apply number_iff in Hf. apply number_iff in Hg.
      rewrite Ec in Hf. rewrite Ed in Hg. injection Hf as <-. injection Hg as <-. apply I in H. rewrite Q in H. exact H.
    + split; [split; congruence|]. intros f' g' Hf _. apply number_iff in Hf. congruence.
  - destruct H as (H1 & H2).
    destruct (a_factor c) as [f|] eqn:Ec, (a_factor d) as [g|] eqn:Ed.
    + apply I. rewrite (P g) by (apply number_iff; exact Ed). apply H2; apply number_iff; assumption.
    + exfalso. apply (proj1 H1); congruence.
    + exfalso. apply (proj2 H1); congruence.
    + reflexivity.
Qed.

Lemma verify_iff : forall cm vt, verify cm vt = Ok tt <-> permitted cm vt.
Proof.
  intros [[|]|] [|]; split; intro H; try discriminate; try reflexivity; try constructor; inversion H.
Qed.

Lemma verify_cases : forall cm vt, (permitted cm vt /\ verify cm vt = Ok tt) \/ (~ permitted cm vt /\ exists e, verify cm vt = Err e).
Proof.
  intros cm vt. destruct (verify cm vt) as [[]|e] eqn:E.
  - left. split; [apply verify_iff; exact E|reflexivity].
  - right. split; [|exists e; reflexivity]. intro H. apply verify_iff in H. congruence.
Qed.

(** * C86: constructors *)

(** The factor that arguments ask for. *)
Theorem C86_factor : forall c sf se r, parse_cf c sf se = Ok r <-> asked c sf se r.
Proof.
  intros c sf se r. split.
  - intro H. unfold parse_cf in H.
    destruct c as [c|], sf as [s|], se as [e|]; try discriminate; try (injection H as <-; constructor);
      cbn [create_from bind] in H; try discriminate.
    + destruct (cf_eq (mkcf (Some e) (Some s)) c) eqn:E; [|discriminate]. injection H as <-. constructor. apply alike_iff. exact E.
    + destruct (cf_eq (mkcf (Some e) None) c) eqn:E; [|discriminate]. injection H as <-. constructor. apply alike_iff. exact E.
  - intro H. inversion H; subst; try reflexivity.
    match goal with A : alike _ _ |- _ => apply alike_iff in A; rename A into E end.
    unfold parse_cf. destruct sf as [s|]; cbn [create_from bind]; rewrite E; reflexivity.
Qed.

Lemma settled_null : forall c, or_null c = settled c.
Proof. intros [c|]; reflexivity. Qed.

(** From a numpy array. *)
Theorem C86_numbers : forall U (one : U) lu v k r, k_bypass k = false ->
  (new_array one lu (InNumbers v) k = Ok r
   <-> exists c, asked (k_cf k) (k_sf k) (k_se k) c
       /\ ~ (k_cm k = Some true /\ k_vt k = false)
       /\ r = mku (given (k_units k) one)
                  (mkarr v (Some (settled c)) (k_cm k) (match k_cm k with None => false | Some _ => k_vt k end) (k_comp k))).
Proof.
  intros U one lu v k r B. unfold new_array. rewrite B. unfold from_numbers. split.
  - intro H. destruct (parse_cf (k_cf k) (k_sf k) (k_se k)) as [c|] eqn:P; [|discriminate]. cbn [bind] in H.
    apply C86_factor in P. destruct (verify_cases (k_cm k) (match k_cm k with Some _ => k_vt k | None => false end)) as [(V & E)|(V & e & E)];
      rewrite E in H; [|discriminate]. cbn [bind] in H. injection H as <-. exists c. split; [exact P|]. split.
    + intros (M & T). rewrite M, T in V. inversion V.
    + rewrite settled_null. unfold or_unit, given. reflexivity.
  - intros (c & P & V & ->). apply C86_factor in P. rewrite P. cbn [bind].
    assert (E : verify (k_cm k) (match k_cm k with Some _ => k_vt k | None => false end) = Ok tt).
    { destruct (k_cm k) as [[|]|]; [|destruct (k_vt k); reflexivity|reflexivity].
      destruct (k_vt k) eqn:T; [reflexivity|]. exfalso. apply V. split; reflexivity. }
    rewrite E. cbn [bind]. rewrite settled_null. reflexivity.
Qed.

Lemma null_iff : forall c, cf_eq c null_cf = true <-> cscale c = None.
Proof.
  intros [k s]. rewrite alike_iff. unfold alike, null_cf. cbn [cscale].
  split; [intros (E & _); exact E|]. intros ->. split; [reflexivity|].
  assert (N : forall k f, ~ number_of (mkcf k None) f) by (intros ? ? H; inversion H).
  split; [split; intros (f & H); apply N in H; contradiction|]. intros f g H. apply N in H. contradiction.
Qed.

(** From a cosmo array: its own factor counts (a factor that is passed does not), numbers are converted to
    the frame that is asked for. *)
Theorem C86_cosmo : forall U (one : U) lu x own k r, k_bypass k = false -> acf (u_arr x) = Some own ->
  (new_array one lu (InCosmo x) k = Ok r
   <-> exists c v, asked (match cscale own with None => None | Some _ => Some own end) (k_sf k) (k_se k) c
       /\ moved (u_arr x) (given c own) (first_of (k_cm k) (acm (u_arr x))) v
       /\ permitted (first_of (k_cm k) (acm (u_arr x))) (k_vt k)
       /\ r = mku (u_unit x) (mkarr v (Some (given c own)) (first_of (k_cm k) (acm (u_arr x))) (k_vt k)
                                    (first_comp (k_comp k) (acomp (u_arr x))))).
Proof.
  intros U one lu x own k r B O. unfold new_array. rewrite B. unfold from_cosmo. rewrite O. cbn [bind].
  assert (W : (if cf_eq own null_cf then None else Some own) = (match cscale own with None => None | Some _ => Some own end)).
  { destruct (cf_eq own null_cf) eqn:E.
    - apply null_iff in E. rewrite E. reflexivity.
    - destruct (cscale own) eqn:E2; [reflexivity|]. apply null_iff in E2. congruence. }
  rewrite W. clear W. set (o := match cscale own with None => None | Some _ => Some own end).
  assert (OC : forall c d, or_comp c d = first_comp c d) by (intros [| |] d; reflexivity).
  assert (Z : forall c : option cf, (match c with Some c => Some c | None => Some own end) = Some (given c own)) by (intros [c|]; reflexivity).
  destruct x as [u [vals cf0 cm vt co]]. cbn [u_arr u_unit acf acm avals avt acomp] in *. subst cf0.
  split.
  - intro H. destruct (parse_cf o (k_sf k) (k_se k)) as [c|] eqn:P; [|discriminate]. cbn [bind] in H. apply C86_factor in P.
    rewrite Z in H. exists c.
    destruct (k_cm k) as [[|]|] eqn:M; cbn [first_of].
    + unfold convert_to_comoving in H. cbn [acm avt acf avals acomp] in H.
      destruct cm as [[|]|].
      * cbn [bind acm acf acomp avals] in H. destruct (verify_cases (Some true) (k_vt k)) as [(V & E)|(V & e & E)]; rewrite E in H; [|discriminate].
        cbn [bind] in H. injection H as <-. exists vals. rewrite OC. repeat split; [exact P|apply (moved_not (mkarr vals (Some own) (Some true) vt co))|exact V].
      * destruct vt; [|discriminate]. cbn [negb orb factor_of] in H. destruct (a_factor (given c own)) as [f|] eqn:F; [|discriminate].
        cbn [bind acm acf acomp avals] in H. destruct (verify_cases (Some true) (k_vt k)) as [(V & E)|(V & e & E)]; rewrite E in H; [|discriminate].
        cbn [bind] in H. injection H as <-. exists (map (fun v => v / f) vals). rewrite OC. repeat split; [exact P| |exact V].
        apply (moved_comoving (mkarr vals (Some own) (Some false) true co) (given c own) f eq_refl eq_refl). apply number_iff. exact F.
      * rewrite orb_true_r in H. discriminate.
    + unfold convert_to_physical in H. cbn [acm avt acf avals acomp] in H.
      destruct cm as [[|]|]; [| |discriminate].
      * cbn [factor_of] in H. destruct (a_factor (given c own)) as [f|] eqn:F; [|discriminate].
        cbn [bind acm acf acomp avals verify] in H. injection H as <-. exists (map (fun v => v * f) vals). rewrite OC. repeat split; [exact P| |constructor].
        apply (moved_physical (mkarr vals (Some own) (Some true) vt co) (given c own) f eq_refl). apply number_iff. exact F.
      * cbn [bind acm acf acomp avals verify] in H. injection H as <-. exists vals. rewrite OC.
        repeat split; [exact P|apply (moved_not (mkarr vals (Some own) (Some false) vt co))|constructor].
    + cbn [bind acm acf acomp avals] in H. destruct (verify_cases cm (k_vt k)) as [(V & E)|(V & e & E)]; rewrite E in H; [|discriminate].
      cbn [bind] in H. injection H as <-. exists vals. rewrite OC. repeat split; [exact P|apply (moved_not (mkarr vals (Some own) cm vt co))|exact V].
  - intros (c & v & P & M & V & ->). apply C86_factor in P. rewrite P. cbn [bind]. rewrite Z. apply verify_iff in V.
    assert (K : (match k_cm k with
                 | Some true => convert_to_comoving (mkarr vals (Some (given c own)) cm vt co)
                 | Some false => convert_to_physical (mkarr vals (Some (given c own)) cm vt co)
                 | None => Ok (mkarr vals (Some (given c own)) cm vt co) end)
                = Ok (mkarr v (Some (given c own)) (first_of (k_cm k) cm) vt co)).
    { destruct (k_cm k) as [[|]|]; cbn [first_of] in M |- *.
      - unfold convert_to_comoving. cbn [acm avt acf avals acomp]. inversion M; clear M; subst; cbn [acm avt avals] in *; subst; try reflexivity.
        cbn [negb orb factor_of]. match goal with F : number_of _ _ |- _ => apply number_iff in F; rewrite F end. reflexivity.
      - unfold convert_to_physical. cbn [acm avt acf avals acomp]. inversion M; clear M; subst; cbn [acm avt avals] in *; subst; try reflexivity.
        cbn [negb orb factor_of]. match goal with F : number_of _ _ |- _ => apply number_iff in F; rewrite F end. reflexivity.
      - inversion M; clear M; subst; cbn [acm avt avals] in *; try congruence. }
    rewrite K. cbn [bind acm avals acf acomp]. rewrite V, OC. reflexivity.
Qed.

(** Such an array stands for the same values, if its factor is its own. *)
Theorem C86_cosmo_meaning : forall U (one : U) lu x s k kw r, k_bypass kw = false -> good s k (u_arr x) ->
  k_sf kw = None -> k_se kw = None -> new_array one lu (InCosmo x) kw = Ok r ->
  phys (u_arr r) = phys (u_arr x) /\ acf (u_arr r) = acf (u_arr x) /\ u_unit r = u_unit x.
Proof.
  intros U one lu x s k kw r B G S E H.
  apply (C86_cosmo U one lu x _ kw r B (g_cf _ _ _ G)) in H. destruct H as (c & v & P & M & V & ->).
  cbn [cscale] in P. rewrite S, E in P. inversion P; subst. cbn [given] in *. cbn [u_arr u_unit acf].
  split; [|split; [symmetry; apply (g_cf _ _ _ G)|reflexivity]].
  unfold phys. cbn [acm acf avals]. rewrite (g_cf _ _ _ G).
  destruct M as [|f E1 F|f E1 E2 F].
  - destruct (first_of (k_cm kw) (acm (u_arr x))) as [[|]|]; reflexivity.
  - rewrite E1. inversion F; subst. apply map_ext. intro. ring.
  - rewrite E1. inversion F; subst. rewrite map_map. transitivity (map (fun v => v) (avals (u_arr x))); [|apply map_id].
    apply map_ext. intro v. field. apply Rpower_nz.
Qed.

(** A factor or a unit that is passed along with a cosmo array is ignored. *)
Theorem C86_ignored_refuted : forall U (one : U) lu x k c u, k_bypass k = false ->
  new_array one lu (InCosmo x) k
  = new_array one lu (InCosmo x) (mkkw u c (k_sf k) (k_se k) (k_cm k) (k_vt k) (k_comp k) false).
Proof. intros U one lu x k c u B. unfold new_array. rewrite B. reflexivity. Qed.

(** What is constructed is lawful, whatever was passed. *)
Theorem C86_lawful : forall U (one : U) lu i k r, k_bypass k = false ->
  (new_array one lu i k = Ok r \/ new_quantity one lu i k = Ok r) ->
  permitted (acm (u_arr r)) (avt (u_arr r)) /\ acf (u_arr r) <> None.
Proof.
  intros U one lu i k r B.
  assert (A : forall i k, k_bypass k = false -> new_array one lu i k = Ok r -> permitted (acm (u_arr r)) (avt (u_arr r)) /\ acf (u_arr r) <> None).
  { clear i k B. intros i k B H. unfold new_array in H. rewrite B in H. destruct i as [x|v|l|v].
    - unfold from_cosmo in H. destruct (acf (u_arr x)) as [own|] eqn:O; [|discriminate]. cbn [bind] in H.
      destruct (parse_cf _ _ _) as [c|]; [|discriminate]. cbn [bind] in H.
      match type of H with bind ?e _ = _ => destruct e as [w|] eqn:W end; [|discriminate]. cbn [bind] in H.
      destruct (verify_cases (acm w) (k_vt k)) as [(V & E)|(V & e & E)]; rewrite E in H; [|discriminate]. cbn [bind] in H. injection H as <-.
      cbn [u_arr acm avt acf]. split; [exact V|].
      assert (Q : forall z w, (convert_to_comoving z = Ok w \/ convert_to_physical z = Ok w \/ Ok z = Ok w) -> acf w = acf z).
      { clear. intros z w [H|[H|H]]; [| |injection H as <-; reflexivity].
        - unfold convert_to_comoving in H. destruct (acm z) as [[|]|]; [injection H as <-; reflexivity| |]; destruct (_ || _); try discriminate;
            destruct (factor_of (acf z)); try discriminate; injection H as <-; reflexivity.
        - unfold convert_to_physical in H. destruct (acm z) as [[|]|]; [|injection H as <-; reflexivity|discriminate];
            destruct (factor_of (acf z)); try discriminate; injection H as <-; reflexivity. }
      assert (R : acf w = match c with Some c => Some c | None => Some own end).
      { destruct (k_cm k) as [[|]|]; apply (Q (mkarr (avals (u_arr x)) (match c with Some c => Some c | None => Some own end) (acm (u_arr x)) (avt (u_arr x)) (acomp (u_arr x))));
          [left|right; left|right; right]; exact W. }
      rewrite R. destruct c; discriminate.
    - unfold from_numbers in H. destruct (parse_cf _ _ _) as [c|]; [|discriminate]. cbn [bind] in H.
      destruct (verify_cases (k_cm k) (match k_cm k with Some _ => k_vt k | None => false end)) as [(V & E)|(V & e & E)]; rewrite E in H; [|discriminate].
      cbn [bind] in H. injection H as <-. cbn [u_arr acm avt acf]. split; [exact V|discriminate].
    - unfold from_list in H. destruct (prepare _ l) as [p|]; [|discriminate]. cbn [bind] in H.
      destruct (parse_cf _ _ _) as [c|]; [|discriminate]. cbn [bind] in H.
      match type of H with bind ?e _ = _ => destruct e as [d|] end; [|discriminate]. cbn [bind] in H. cbv zeta in H.
      match type of H with bind (verify ?a ?b) _ = _ => destruct (verify_cases a b) as [(V & E)|(V & e & E)] end; rewrite E in H; [|discriminate].
      cbn [bind] in H. injection H as <-. cbn [u_arr acm avt acf]. split; [exact V|discriminate].
    - discriminate. }
  intros [H|H]; [apply (A i k B H)|].
  unfold new_quantity in H. rewrite B in H. cbn [bind] in H.
  match type of H with bind ?e _ = _ => destruct e as [k'|] eqn:K end; [|discriminate]. cbn [bind] in H.
  assert (B' : k_bypass k' = false) by (destruct i; try discriminate; injection K as <-; reflexivity).
  destruct (new_array one lu (InNumbers (numbers_of i)) k') as [r'|] eqn:R; [|discriminate]. cbn [bind] in H.
  destruct (1 <? zlen (avals (u_arr r')))%Z; [discriminate|]. injection H as ->. apply (A _ _ B' R).
Qed.

(** [bypass_validation] with a scale factor but without a factor to look the function up on. *)
Theorem C86_bypass_refuted : forall U (one : U) lu i k s, k_bypass k = true -> k_sf k = Some s -> k_cf k = None ->
  new_array one lu i k = Err AttributeError /\ new_quantity one lu i k = Err AttributeError.
Proof.
  intros U one lu i k s B S C. unfold new_quantity, new_array. rewrite B. unfold bypass. rewrite S, C. split; reflexivity.
Qed.

(** Without a scale factor it takes what it is told. *)
Theorem C86_bypass : forall U (one : U) lu i k, k_bypass k = true -> k_sf k = None ->
  new_array one lu i k = Ok (mku (given (k_units k) one) (mkarr (numbers_of i) (Some (settled (k_cf k))) (k_cm k) (k_vt k) (k_comp k))).
Proof.
  intros U one lu i k B S. unfold new_array. rewrite B. unfold bypass. rewrite S. cbn [bind]. rewrite settled_null. reflexivity.
Qed.

(** ** Lists *)

Lemma reduce_same : forall c n, cf_eq c c = true -> reduce_from h_preserve2 (Some c) (repeat (Some c) n) = Ok (Some c).
Proof.
  intros c n E. induction n as [|n IH]; [reflexivity|]. cbn [repeat reduce_from h_preserve2]. rewrite E. cbn [bind]. exact IH.
Qed.

Lemma good_cfs : forall s k l, all_good s k l -> map op_cf (map OArr l) = repeat (Some (mkcf (Some k) (Some s))) (length l).
Proof.
  intros s k l G. induction l as [|x t IH]; [reflexivity|]. cbn [map length repeat op_cf].
  rewrite (g_cf _ _ _ (G x (or_introl eq_refl))). f_equal. apply IH. intros y I. apply G. right. exact I.
Qed.

Lemma good_cms : forall l, map snd (filter fst (map op_cm (map OArr l))) = map acm l.
Proof. induction l as [|x t IH]; [reflexivity|]. cbn [map op_cm filter fst snd]. f_equal. exact IH. Qed.

Lemma good_flags : forall s k l, all_good s k l ->
  (forallb is_none (map acm l) = true -> l = [])
  /\ existsb is_none (map acm l) = false
  /\ existsb (fun o => match o with OArr x => negb (avt x) | OPlain _ => false end) (map OArr l) = false.
Proof.
  intros s k l G. induction l as [|x t IH]; [repeat split; reflexivity|].
  destruct (G x (or_introl eq_refl)) as [F M V].
  destruct IH as (_ & I2 & I3); [intros y I; apply G; right; exact I|].
  cbn [map forallb existsb]. rewrite I2, I3, V. destruct (acm x) as [[|]|]; [| |congruence]; cbn [is_none andb orb negb]; repeat split; discriminate.
Qed.

Lemma coerced_comoving : forall s k l, all_good s k l ->
  all_ok (map (coerce to_comoving) (map OArr l)) = Ok (map (fun x => OArr (set_cm x true (comov x))) l).
Proof.
  intros s k l G. apply all_ok_spec. rewrite !map_map. apply map_ext_in. intros x I. cbn [coerce].
  pose proof (G x I) as Gx. destruct (acm x) as [[|]|] eqn:M; cbn [is_true].
  - unfold set_cm, comov. rewrite M. destruct x as [v0 c0 m0 t0 o0]. cbn in M |- *. subst m0. reflexivity.
  - rewrite (to_c_good s k x Gx). reflexivity.
  - exfalso. apply (g_cm _ _ _ Gx). exact M.
Qed.

Lemma coerced_physical : forall s k l, all_good s k l ->
  exists l', all_ok (map (coerce to_physical) (map OArr l)) = Ok (map OArr l') /\ map avals l' = map avals l.
Proof.
  intros s k l G. induction l as [|x t IH]; [exists []; split; reflexivity|].
  destruct IH as (l' & E & A); [intros y I; apply G; right; exact I|].
  pose proof (G x (or_introl eq_refl)) as Gx.
  assert (X : exists y, coerce to_physical (OArr x) = Ok (OArr y) /\ avals y = avals x).
  { cbn [coerce]. destruct (acm x) as [[|]|] eqn:M; cbn [is_true].
    - exists x. split; reflexivity.
    - rewrite (to_p_good s k x Gx). exists (set_cm x false (phys x)). split; [reflexivity|]. unfold set_cm, phys. cbn [avals]. rewrite M. reflexivity.
    - exfalso. apply (g_cm _ _ _ Gx). exact M. }
  destruct X as (y & Ey & Ay). exists (y :: l'). split; [|cbn [map]; congruence].
  apply all_ok_spec in E. apply all_ok_spec. cbn [map]. rewrite Ey. f_equal. exact E.
Qed.

Lemma flat_op : forall l, flat_map op_vals (map OArr l) = flat_map avals l.
Proof. induction l as [|x t IH]; [reflexivity|]. cbn [map flat_map op_vals]. rewrite IH. reflexivity. Qed.

Lemma flat_avals : forall l l', map avals l = map avals l' -> flat_map avals l = flat_map avals l'.
Proof. intros l l' H. rewrite !flat_map_concat_map, H. reflexivity. Qed.

(** From a list of convertible arrays or quantities. *)
Lemma list_prepared : forall s k l d, all_good s k l -> l <> [] ->
  exists l' b co, prepare d (map OArr l) = Ok (mkprep (map OArr l') (map op_cf (map OArr l)) (Some b) true co)
  /\ ((b = true /\ (d = true \/ forall x, In x l -> acm x = Some true) /\ (exists x, In x l /\ acm x = Some true) /\ flat_map avals l' = flat_map comov l)
      \/ (b = false /\ (d = false \/ forall x, In x l -> acm x = Some false) /\ flat_map avals l' = flat_map avals l)).
Proof.
  intros s k l d G N. unfold prepare. rewrite good_cms. destruct (good_flags s k l G) as (F1 & F2 & F3).
  assert (V : forallb op_vt (map OArr l) = true).
  { apply forallb_forall. intros o I. apply in_map_iff in I. destruct I as (x & <- & I). apply (g_vt _ _ _ (G x I)). }
  rewrite V, F2, F3. clear V.
  assert (L : exists c t, map acm l = c :: t) by (destruct l; [congruence|eexists; eexists; reflexivity]).
  assert (Fn : forallb is_none (map acm l) = false).
  { destruct (forallb is_none (map acm l)); [|reflexivity]. exfalso. apply N. apply F1. reflexivity. }
  rewrite Fn. set (cps := match map op_comp (map OArr l) with [] => _ | _ => _ end).
  assert (C1 : (forall x, In x l -> acm x = Some true) -> flat_map avals l = flat_map comov l).
  { intro A. rewrite !flat_map_concat_map. f_equal. apply map_ext_in. intros x I. unfold comov. rewrite (A x I). reflexivity. }
  destruct L as (c0 & t0 & L). rewrite L. rewrite <- L.
  destruct (forallb is_true (map acm l)) eqn:T.
  { exists l, true, cps. split; [reflexivity|]. left. rewrite forallb_forall in T.
    assert (A : forall x, In x l -> acm x = Some true).
    { intros x I. specialize (T (acm x) (in_map acm l x I)). destruct (acm x) as [[|]|]; [reflexivity|discriminate|discriminate]. }
    split; [reflexivity|]. split; [right; exact A|]. split; [|apply C1; exact A].
    destruct l as [|x t]; [congruence|]. exists x. split; [left; reflexivity|apply A; left; reflexivity]. }
  destruct (forallb is_false (map acm l)) eqn:Fa.
  { exists l, false, cps. split; [reflexivity|]. right. rewrite forallb_forall in Fa. split; [reflexivity|]. split; [|reflexivity]. right.
    intros x I. specialize (Fa (acm x) (in_map acm l x I)). destruct (acm x) as [[|]|]; [discriminate|reflexivity|discriminate]. }
  assert (X : exists x, In x l /\ acm x = Some true).
  { assert (E : exists m, In m (map acm l) /\ is_false m = false).
    { clear - Fa. induction (map acm l) as [|m t IH]; [discriminate|]. cbn [forallb] in Fa. destruct (is_false m) eqn:E.
      - destruct IH as (m' & I & E'); [exact Fa|]. exists m'. split; [right; exact I|exact E'].
      - exists m. split; [left; reflexivity|exact E]. }
    destruct E as (m & I & E). apply in_map_iff in I. destruct I as (x & <- & I). exists x. split; [exact I|].
    pose proof (g_cm _ _ _ (G x I)) as Q. destruct (acm x) as [[|]|]; [reflexivity|discriminate|congruence]. }
  destruct d; cbn [andb negb].
  - rewrite (coerced_comoving s k l G). cbn [bind]. exists (map (fun x => set_cm x true (comov x)) l), true, cps.
    split; [rewrite (map_map (fun x => set_cm x true (comov x)) OArr); reflexivity|]. left. split; [reflexivity|]. split; [left; reflexivity|]. split; [exact X|].
    rewrite !flat_map_concat_map, map_map. reflexivity.
  - destruct (coerced_physical s k l G) as (l' & E & A). rewrite E. cbn [bind]. exists l', false, cps. split; [reflexivity|]. right.
    split; [reflexivity|]. split; [left; reflexivity|]. apply flat_avals. exact A.
Qed.

Lemma flat_phys : forall s k l, all_good s k l -> map (fun v => Rpower s k * v) (flat_map comov l) = flat_map phys l.
Proof.
  intros s k l G. induction l as [|x t IH]; [reflexivity|]. cbn [flat_map]. rewrite map_app, IH by (intros y I; apply G; right; exact I). f_equal.
  pose proof (G x (or_introl eq_refl)) as Gx. unfold comov, phys. rewrite (g_cf _ _ _ Gx). destruct (acm x) as [[|]|] eqn:M.
  - reflexivity.
  - rewrite map_map. transitivity (map (fun v => v) (avals x)); [|apply map_id]. apply map_ext. intro v. field. apply Rpower_nz.
  - exfalso. apply (g_cm _ _ _ Gx). exact M.
Qed.

Lemma list_built : forall U (one : U) lu s k l kw, all_good s k l -> l <> [] ->
  k_bypass kw = false -> k_cf kw = None -> k_sf kw = None -> k_se kw = None -> k_vt kw = true ->
  exists r l' b, new_array one lu (InList (map OArr l)) kw = Ok r
  /\ acf (u_arr r) = Some (mkcf (Some k) (Some s)) /\ acm (u_arr r) = first_of (k_cm kw) (Some b) /\ avt (u_arr r) = true
  /\ avals (u_arr r) = flat_map avals l'
  /\ let d := given (k_cm kw) true in
     ((b = true /\ (d = true \/ forall x, In x l -> acm x = Some true) /\ (exists x, In x l /\ acm x = Some true) /\ flat_map avals l' = flat_map comov l)
      \/ (b = false /\ (d = false \/ forall x, In x l -> acm x = Some false) /\ flat_map avals l' = flat_map avals l)).
Proof.
  intros U one lu s k l kw G N B C S E V. unfold new_array. rewrite B. unfold from_list.
  destruct (list_prepared s k l (match k_cm kw with Some b => b | None => true end) G N) as (l' & b & co & P & R).
  rewrite P. cbn [bind p_cm p_cfs p_args p_comp]. rewrite C, S, E. cbn [parse_cf bind].
  rewrite (good_cfs s k l G).
  assert (H : h_preserve (repeat (Some (mkcf (Some k) (Some s))) (length l)) = Ok (Some (mkcf (Some k) (Some s)))).
  { destruct l as [|x t]; [congruence|]. cbn [length repeat]. unfold h_preserve, reduce. apply reduce_same. apply cf_eq_refl. }
  assert (D : match map OArr l with [] => Ok None | _ :: _ => h_preserve (repeat (Some (mkcf (Some k) (Some s))) (length l)) end = Ok (Some (mkcf (Some k) (Some s)))).
  { destruct l; [congruence|]. exact H. }
  rewrite D. cbn [bind or_null].
  assert (M : or_cm (k_cm kw) (Some b) = first_of (k_cm kw) (Some b)) by (destruct (k_cm kw); reflexivity).
  rewrite M. assert (M2 : exists b', first_of (k_cm kw) (Some b) = Some b') by (destruct (k_cm kw) as [b'|]; [exists b'|exists b]; reflexivity).
  destruct M2 as (b' & M2). rewrite M2, V.
  assert (Ve : verify (Some b') true = Ok tt) by (destruct b'; reflexivity). rewrite Ve. cbn [bind].
  eexists. exists l', b. split; [reflexivity|]. cbn [u_arr acf acm avt avals]. rewrite flat_op.
  split; [reflexivity|]. split; [congruence|]. split; [reflexivity|]. split; [reflexivity|]. unfold given. exact R.
Qed.

(** Without a frame, or with comoving and a comoving element among them, all elements keep their
    meaning. *)
Theorem C86_list : forall U (one : U) lu s k l kw, all_good s k l -> l <> [] ->
  k_bypass kw = false -> k_cf kw = None -> k_sf kw = None -> k_se kw = None -> k_vt kw = true ->
  (k_cm kw = None \/ (k_cm kw = Some true /\ exists x, In x l /\ acm x = Some true)) ->
  exists r, new_array one lu (InList (map OArr l)) kw = Ok r
  /\ good s k (u_arr r) /\ phys (u_arr r) = flat_map phys l.
Proof.
  intros U one lu s k l kw G N B C S E V H.
  destruct (list_built U one lu s k l kw G N B C S E V) as (r & l' & b & R & Fr & Mr & Vr & Ar & K).
  exists r. split; [exact R|].
  assert (Mb : acm (u_arr r) = Some b /\ (b = true \/ forall x, In x l -> acm x = Some false)).
  { destruct H as [H|(H & x & I & X)]; rewrite H in Mr, K; cbn [first_of given] in Mr, K.
    - split; [exact Mr|]. destruct K as [(-> & _)|(_ & [D|D] & _)]; [left; reflexivity|discriminate|right; exact D].
    - destruct K as [(-> & _)|(_ & [D|D] & _)]; [split; [exact Mr|left; reflexivity]|discriminate|]. rewrite (D x I) in X. discriminate. }
  destruct Mb as (Mb & Hb). split; [constructor; [exact Fr|rewrite Mb; discriminate|exact Vr]|].
  unfold phys at 1. rewrite Mb, Fr, Ar. destruct K as [(-> & _ & _ & A)|(-> & _ & A)]; rewrite A.
  - apply (flat_phys s k l G).
  - destruct Hb as [Hb|Hb]; [discriminate|]. rewrite !flat_map_concat_map. f_equal. apply map_ext_in. intros x I.
    unfold phys. rewrite (Hb x I). reflexivity.
Qed.

(** With a frame that no element has, or with the physical one, the numbers stay as they are and only get
    the label. *)
Theorem C86_list_relabelled_refuted : forall U (one : U) lu s k l kw b, all_good s k l -> l <> [] ->
  k_bypass kw = false -> k_cf kw = None -> k_sf kw = None -> k_se kw = None -> k_vt kw = true ->
  k_cm kw = Some b -> (b = false \/ forall x, In x l -> acm x = Some (negb b)) ->
  exists r, new_array one lu (InList (map OArr l)) kw = Ok r
  /\ acm (u_arr r) = Some b /\ avals (u_arr r) = flat_map avals l.
Proof.
  intros U one lu s k l kw b G N B C S E V Hb H.
  destruct (list_built U one lu s k l kw G N B C S E V) as (r & l' & b' & R & Fr & Mr & Vr & Ar & K).
  exists r. split; [exact R|]. rewrite Hb in Mr, K. cbn [first_of given] in Mr, K. split; [exact Mr|]. rewrite Ar.
  destruct K as [(-> & D & (x & I & X) & A)|(-> & _ & A)]; rewrite A; [|reflexivity].
  destruct H as [->|H].
  - destruct D as [D|D]; [discriminate|]. rewrite !flat_map_concat_map. f_equal. apply map_ext_in. intros y J. unfold comov. rewrite (D y J). reflexivity.
  - rewrite (H x I) in X. destruct b; [discriminate|]. cbn [negb] in X. rewrite !flat_map_concat_map. f_equal. apply map_ext_in. intros y J. unfold comov.
    rewrite (H y J). reflexivity.
Qed.

(** A list of plain numbers is an array of them, but for its compression: the pair of "has none" and
    nothing. *)
Theorem C86_plain_list : forall U (one : U) lu vs kw, k_bypass kw = false ->
  (forall e, new_array one lu (InList (map OPlain vs)) kw = Err e <-> new_array one lu (InNumbers (concat vs)) kw = Err e)
  /\ (forall r r', new_array one lu (InList (map OPlain vs)) kw = Ok r -> new_array one lu (InNumbers (concat vs)) kw = Ok r' ->
      avals (u_arr r) = avals (u_arr r') /\ acf (u_arr r) = acf (u_arr r') /\ acm (u_arr r) = acm (u_arr r') /\ avt (u_arr r) = avt (u_arr r')
      /\ u_unit r = lu (k_units kw) (map OPlain vs)
      /\ acomp (u_arr r) = first_comp (k_comp kw) (match vs with [] => CNone | _ :: _ => CPair false CNone end)).
Proof.
  intros U one lu vs kw B. unfold new_array. rewrite B. unfold from_list, from_numbers.
  assert (F : flat_map op_vals (map OPlain vs) = concat vs).
  { clear. induction vs as [|v t IH]; [reflexivity|]. cbn [map flat_map op_vals concat]. rewrite IH. reflexivity. }
  assert (P : forall d, exists cfs vt, prepare d (map OPlain vs)
     = Ok (mkprep (map OPlain vs) cfs None vt (match vs with [] => CNone | _ :: _ => CPair false CNone end))
     /\ (vs <> [] -> h_preserve cfs = Ok None)).
  { intro d. unfold prepare.
    assert (Q : filter fst (map op_cm (map OPlain vs)) = []).
    { clear. induction vs as [|v t IH]; [reflexivity|]. exact IH. }
    rewrite Q. cbn [map]. exists (map op_cf (map OPlain vs)), (forallb op_vt (map OPlain vs)). split.
    - f_equal. f_equal. destruct vs as [|v t]; [reflexivity|]. cbn [map op_comp].
      assert (W : forallb (comp_eqb (CPair false CNone)) (map op_comp (map OPlain t)) = true).
      { clear. induction t as [|w t IH]; [reflexivity|]. exact IH. }
      rewrite W. reflexivity.
    - intro N. destruct vs as [|v t]; [congruence|]. unfold h_preserve. cbn [map op_cf reduce]. clear.
      induction t as [|w t IH]; [reflexivity|]. exact IH. }
  destruct (P (match k_cm kw with Some b => b | None => true end)) as (cfs & vt & E & H). rewrite E. cbn [bind p_cm p_cfs p_args p_comp].
  assert (M : or_cm (k_cm kw) None = k_cm kw) by (destruct (k_cm kw); reflexivity). rewrite M.
  assert (C : forall c, (match c, map OPlain vs with None, _ :: _ => h_preserve cfs | _, _ => Ok c end) = Ok c).
  { intros [c|]; [reflexivity|]. destruct vs as [|v t]; [reflexivity|]. apply H. discriminate. }
  assert (T : (match k_cm kw with Some _ => k_vt kw | None => match k_cm kw with None => false | Some _ => true end end)
     = match k_cm kw with Some _ => k_vt kw | None => false end) by (destruct (k_cm kw); reflexivity).
  assert (OC : forall c d, or_comp c d = first_comp c d) by (intros [| |] d; reflexivity).
  destruct (parse_cf (k_cf kw) (k_sf kw) (k_se kw)) as [c|e0]; cbn [bind]; [|split; [reflexivity|discriminate]].
  rewrite C. cbn [bind]. rewrite T, F. destruct (verify _ _) as [[]|e0]; cbn [bind]; [|split; [reflexivity|discriminate]].
  split; [intro e; split; discriminate|]. intros r r' R R'. injection R as <-. injection R' as <-. cbn [u_arr u_unit avals acf acm avt acomp].
  rewrite OC. repeat split.
Qed.

(** A list of protected arrays gives one that is not. *)
Theorem C86_list_protection_refuted : forall U (one : U) lu u c v co,
  exists r, new_array one lu (InList [OArr (mkarr v (Some c) (Some false) false co)]) (mkkw u None None None None true CNone false) = Ok r
  /\ avals (u_arr r) = v /\ avt (u_arr r) = true /\ acomp (u_arr r) = CPair true co.
Proof.
  intros U one lu u c v co. eexists. split; [reflexivity|]. cbn [u_arr avals avt acomp].
  split; [apply app_nil_r|]. split; reflexivity.
Qed.

(** ** Quantities *)

(** A quantity made from another one takes over what is not passed, but the number is never converted. *)
Theorem C86_quantity : forall U (one : U) lu x k r, k_bypass k = false ->
  (new_quantity one lu (InCosmo x) k = Ok r
   <-> exists c, asked (first_of (k_cf k) (acf (u_arr x))) (k_sf k) (k_se k) c
       /\ ~ (first_of (k_cm k) (acm (u_arr x)) = Some true /\ k_vt k = false)
       /\ (length (avals (u_arr x)) <= 1)%nat
       /\ r = mku (given (k_units k) (u_unit x))
                  (mkarr (avals (u_arr x)) (Some (settled c)) (first_of (k_cm k) (acm (u_arr x)))
                         (match first_of (k_cm k) (acm (u_arr x)) with None => false | Some _ => k_vt k end)
                         (first_comp (k_comp k) (acomp (u_arr x))))).
Proof.
  intros U one lu x k r B. unfold new_quantity. rewrite B. cbn [bind numbers_of].
  assert (M : or_cm (k_cm k) (acm (u_arr x)) = first_of (k_cm k) (acm (u_arr x))) by (destruct (k_cm k); reflexivity).
  assert (CF : (match k_cf k with None => acf (u_arr x) | c => c end) = first_of (k_cf k) (acf (u_arr x))) by (destruct (k_cf k); reflexivity).
  assert (OC : or_comp (k_comp k) (acomp (u_arr x)) = first_comp (k_comp k) (acomp (u_arr x))) by (destruct (k_comp k); reflexivity).
  rewrite M, CF, OC. set (cm := first_of (k_cm k) (acm (u_arr x))).
  set (k' := mkkw _ _ _ _ _ _ _ _). cbn [bind].
  assert (Z : (1 <? zlen (avals (u_arr x)))%Z = false <-> (length (avals (u_arr x)) <= 1)%nat).
  { unfold zlen. rewrite Z.ltb_ge. lia. }
  assert (TT : match cm with None => false | Some _ => match cm with Some _ => k_vt k | None => false end end = match cm with None => false | Some _ => k_vt k end)
    by (destruct cm; reflexivity).
  split.
  - intro H. destruct (new_array one lu (InNumbers (avals (u_arr x))) k') as [r'|] eqn:R; [|discriminate]. cbn [bind] in H.
    apply (C86_numbers U one lu (avals (u_arr x)) k' r' eq_refl) in R. destruct R as (c & P & V & ->). cbn [u_arr avals] in H.
    destruct (1 <? zlen (avals (u_arr x)))%Z eqn:L; [discriminate|]. injection H as <-. exists c.
    cbn [k' k_cf k_sf k_se k_cm k_vt k_comp k_units] in *. rewrite TT. split; [exact P|]. split; [|split; [apply Z; reflexivity|reflexivity]].
    intros (A & T). apply V. split; [exact A|]. rewrite A. exact T.
  - intros (c & P & V & L & ->). assert (R : new_array one lu (InNumbers (avals (u_arr x))) k' = Ok (mku (given (k_units k) (u_unit x))
                  (mkarr (avals (u_arr x)) (Some (settled c)) cm (match cm with None => false | Some _ => k_vt k end) (first_comp (k_comp k) (acomp (u_arr x)))))).
    { apply (C86_numbers U one lu (avals (u_arr x)) k' _ eq_refl). exists c. cbn [k' k_cf k_sf k_se k_cm k_vt k_comp k_units]. rewrite TT. split; [exact P|]. split; [|reflexivity].
      intros (A & T). apply V. split; [exact A|]. rewrite A in T. exact T. }
    rewrite R. cbn [bind u_arr avals]. apply Z in L. rewrite L. reflexivity.
Qed.

(** From a number. *)
Theorem C86_quantity_number : forall U (one : U) lu v k r, k_bypass k = false ->
  (new_quantity one lu (InScalar v) k = Ok r <-> new_array one lu (InNumbers [v]) k = Ok r).
Proof.
  intros U one lu v k r B. unfold new_quantity. rewrite B. cbn [bind numbers_of]. set (k' := mkkw _ _ _ _ _ _ _ _).
  assert (A : new_array one lu (InNumbers [v]) k' = new_array one lu (InNumbers [v]) k).
  { unfold new_array. cbn [k' k_bypass]. rewrite B. unfold from_numbers. cbn [k' k_cf k_sf k_se k_cm k_vt k_comp k_units].
    destruct (k_cm k); reflexivity. }
  rewrite A. destruct (new_array one lu (InNumbers [v]) k) as [r'|] eqn:R; cbn [bind]; [|split; discriminate].
  apply (C86_numbers U one lu [v] k r' B) in R. destruct R as (c & _ & _ & ->). cbn [u_arr avals]. reflexivity.
Qed.

(** So a physical quantity that is asked for as a comoving one gets another meaning, where an array would
    be converted; so does one that is given another unit. *)
Theorem C86_quantity_relabelled_refuted : forall U (one : U) lu u v s k u' vt co,
  let x := mku u (mkarr [v] (Some (mkcf (Some k) (Some s))) (Some false) vt co) in
  new_quantity one lu (InCosmo x) (mkkw (Some u') None None None (Some true) true CNone false)
  = Ok (mku u' (mkarr [v] (Some (mkcf (Some k) (Some s))) (Some true) true co)).
Proof.
  intros U one lu u v s k u' vt co x. apply C86_quantity; [reflexivity|]. exists (Some (mkcf (Some k) (Some s))).
  cbn [k_cf k_sf k_se k_cm k_vt k_comp k_units first_of given u_arr x acf acm avals acomp settled first_comp length].
  split; [constructor|]. split; [intros (_ & H); discriminate|]. split; [lia|]. destruct co; reflexivity.
Qed.

(** A scale factor cannot be given to a quantity that has none yet, though it can to an array. *)
Theorem C86_quantity_factor_refuted : forall U (one : U) lu u v s e cm vt co,
  let x := mku u (mkarr [v] (Some (mkcf None None)) cm vt co) in
  let k := mkkw None None (Some s) (Some e) None vt CNone false in
  (forall r, new_quantity one lu (InCosmo x) k <> Ok r)
  /\ (permitted cm vt -> exists r, new_array one lu (InCosmo x) k = Ok r /\ acf (u_arr r) = Some (mkcf (Some e) (Some s))).
Proof.
  intros U one lu u v s e cm vt co x k. split.
  - intros r H. apply C86_quantity in H; [|reflexivity]. destruct H as (c & P & _). cbn in P. inversion P as [| | |c' sf e' A]; subst.
    destruct A as (A & _). discriminate.
  - intro V. eexists. split; [apply (C86_cosmo U one lu x (mkcf None None) k _ eq_refl eq_refl)|].
    + exists (Some (mkcf (Some e) (Some s))), [v]. cbn [x k k_cf k_sf k_se k_cm k_vt k_comp k_units first_of given u_arr acf acm avals acomp cscale].
      split; [constructor|]. split; [apply (moved_not (mkarr [v] (Some (mkcf None None)) cm vt co))|]. split; [exact V|reflexivity].
    + reflexivity.
Qed.

(** Quantities from astropy and pint can always be converted, whatever [valid_transform] says, even
    without a frame, which the constructor would refuse. *)
Theorem C86_foreign_refuted : forall U v (u : U) c cm vt co,
  avt (u_arr (from_foreign v u c cm vt co)) = true
  /\ (cm = None -> ~ permitted (acm (u_arr (from_foreign v u c cm vt co))) (avt (u_arr (from_foreign v u c cm vt co)))).
Proof. intros. split; [reflexivity|]. intros ->. intro H. inversion H. Qed.

(** Apart from that they have what was passed. *)
Theorem C86_foreign : forall U v (u : U) c cm vt co,
  let r := from_foreign v u c cm vt co in
  u_unit r = u /\ avals (u_arr r) = v /\ acf (u_arr r) = Some c /\ acm (u_arr r) = cm /\ acomp (u_arr r) = co.
Proof. intros. repeat split. Qed.

(** * C87: pickling, units, compatibility *)

Theorem C87_pickle : forall U (x : uarr U), set_state (reduce_state x) = x.
Proof. intros U [u [v c cm vt co]]. reflexivity. Qed.

Section Converting.
Variable U : Type.
Variable S : unit_system U.
Variable ratio : U -> U -> res R.
Hypothesis OK : correct S ratio.
Local Notation dim := (us_dim U S).
Local Notation size := (us_size U S).

Lemma size_nz : forall u, size u <> 0.
Proof. intro u. pose proof (us_pos U S u). lra. Qed.

Lemma change_ok : forall v x, dim (u_unit x) = dim v ->
  change_unit ratio v x = Ok (mku v (mkarr (map (Rmult (size (u_unit x) / size v)) (avals (u_arr x)))
    (acf (u_arr x)) (acm (u_arr x)) (avt (u_arr x)) (acomp (u_arr x)))).
Proof. intros v x D. unfold change_unit. rewrite (proj1 (OK (u_unit x) v) D). reflexivity. Qed.

Lemma change_err : forall v x, dim (u_unit x) <> dim v -> exists e, change_unit ratio v x = Err e.
Proof. intros v x D. unfold change_unit. destruct (proj2 (OK (u_unit x) v) D) as (e & ->). exists e. reflexivity. Qed.

Lemma change_cases : forall v x r, change_unit ratio v x = Ok r -> dim (u_unit x) = dim v.
Proof.
  intros v x r H. destruct (Nat.eq_dec (dim (u_unit x)) (dim v)) as [D|D]; [exact D|]. destruct (change_err v x D) as (e & E). congruence.
Qed.

Lemma change_self : forall x, change_unit ratio (u_unit x) x = Ok x.
Proof.
  intros [u [vals c cm vt co]]. rewrite change_ok by reflexivity. cbn [u_unit u_arr avals acf acm avt acomp]. do 2 f_equal. f_equal.
  transitivity (map (fun v : R => v) vals); [|apply map_id]. apply map_ext. intro v. field. apply size_nz.
Qed.

Lemma worth_change : forall v x r, change_unit ratio v x = Ok r ->
  worth S r = worth S x /\ u_unit r = v /\ acm (u_arr r) = acm (u_arr x) /\ same_labels (u_arr r) (u_arr x).
Proof.
  intros v x r H. pose proof (change_cases v x r H) as D. rewrite (change_ok v x D) in H. injection H as <-.
  split; [|repeat split]. unfold worth, phys. cbn [u_unit u_arr acm acf avals].
  destruct (acm (u_arr x)) as [[|]|]; [destruct (acf (u_arr x)) as [[[k|] [s|]]|]| |]; rewrite ?map_map; apply map_ext; intro w; field; apply size_nz.
Qed.

Lemma worth_conv : forall f x r, (f = convert_to_comoving \/ f = convert_to_physical) -> on_arr f x = Ok r ->
  worth S r = worth S x /\ u_unit r = u_unit x
  /\ acm (u_arr r) = Some (match acm (u_arr r) with Some b => b | None => true end) /\ same_labels (u_arr r) (u_arr x).
Proof.
  intros f [u y] r Hf H. unfold on_arr in H. cbn [u_arr u_unit] in H. destruct (f y) as [z|] eqn:E; [|discriminate]. injection H as <-.
  unfold worth. cbn [u_unit u_arr]. destruct y as [vals c cm vt co]. destruct Hf as [->| ->].
  - unfold convert_to_comoving in E. cbn [acm avt acf avals acomp] in E. destruct cm as [[|]|].
    + injection E as <-. repeat split.
    + destruct vt; [|discriminate]. cbn [negb orb] in E. destruct c as [c|]; [|discriminate]. cbn [factor_of] in E.
      destruct (a_factor c) as [g|] eqn:A; [|discriminate]. injection E as <-. split; [|repeat split].
      unfold a_factor in A. destruct c as [[k|] [s|]]; try discriminate. cbn [cexpr cscale] in A. injection A as <-.
      unfold phys. cbn [acm acf avals]. rewrite !map_map. apply map_ext. intro v. field. apply Rpower_nz.
    + rewrite orb_true_r in E. discriminate.
  - unfold convert_to_physical in E. cbn [acm avt acf avals acomp] in E. destruct cm as [[|]|]; [| |discriminate].
    + destruct c as [c|]; [|discriminate]. cbn [factor_of] in E. destruct (a_factor c) as [g|] eqn:A; [|discriminate]. injection E as <-. split; [|repeat split].
      unfold a_factor in A. destruct c as [[k|] [s|]]; try discriminate. cbn [cexpr cscale] in A. injection A as <-.
      unfold phys. cbn [acm acf avals]. rewrite !map_map. apply map_ext. intro v. ring.
    + injection E as <-. repeat split.
Qed.

Lemma conv_frame : forall (x r : uarr U), (on_arr convert_to_comoving x = Ok r -> acm (u_arr r) = Some true)
  /\ (on_arr convert_to_physical x = Ok r -> acm (u_arr r) = Some false).
Proof.
  intros [u [vals c cm vt co]] r. unfold on_arr. cbn [u_arr u_unit]. split; intro H.
  - unfold convert_to_comoving in H. cbn [acm avt acf avals acomp] in H. destruct cm as [[|]|]; [injection H as <-; reflexivity| |];
      destruct (_ || _); try discriminate; destruct (factor_of c); try discriminate; injection H as <-; reflexivity.
  - unfold convert_to_physical in H. cbn [acm avt acf avals acomp] in H. destruct cm as [[|]|]; [|injection H as <-; reflexivity|discriminate];
      destruct (factor_of c); try discriminate; injection H as <-; reflexivity.
Qed.

(** A conversion gives the unit and the frame that were asked for and keeps what the array is worth. *)
Lemma kept_in : forall units cm x r, to_u ratio units cm x = Ok r ->
  worth S r = worth S x /\ u_unit r = given units (u_unit x)
  /\ acm (u_arr r) = first_of cm (acm (u_arr x)) /\ same_labels (u_arr r) (u_arr x).
Proof.
  intros units cm x r H. unfold to_u in H. destruct (_ && _); [discriminate|].
  assert (C : forall c, (match units with None => Ok x | Some v => change_unit ratio v x end) = Ok c ->
     worth S c = worth S x /\ u_unit c = given units (u_unit x) /\ acm (u_arr c) = acm (u_arr x) /\ same_labels (u_arr c) (u_arr x)).
  { intros c E. destruct units as [v|]; [apply worth_change; exact E|]. injection E as <-. repeat split. }
  destruct (match units with None => Ok x | Some v => change_unit ratio v x end) as [c|] eqn:E; [|discriminate]. cbn [bind] in H.
  destruct (C c eq_refl) as (C1 & C2 & C3 & C4). clear C.
  assert (L : forall d : uarr U, same_labels (u_arr d) (u_arr c) -> same_labels (u_arr d) (u_arr x)).
  { intros d (A1 & A2 & A3). destruct C4 as (B1 & B2 & B3). unfold same_labels. rewrite A1, A2, A3. repeat split; assumption. }
  destruct cm as [[|]|]; cbn [first_of].
  - destruct (worth_conv _ c r (or_introl eq_refl) H) as (W & V & _ & Y). pose proof (proj1 (conv_frame c r) H).
    rewrite W, V. repeat split; try assumption; apply L in Y; destruct Y as (Y1 & Y2 & Y3); assumption.
  - destruct (worth_conv _ c r (or_intror eq_refl) H) as (W & V & _ & Y). pose proof (proj2 (conv_frame c r) H).
    rewrite W, V. repeat split; try assumption; apply L in Y; destruct Y as (Y1 & Y2 & Y3); assumption.
  - injection H as <-. repeat split; try assumption; apply C4.
Qed.

(** It succeeds if the dimensions agree and either the frame stays or the array is convertible. *)
Lemma accepts_in : forall units cm (x : uarr U), permitted (acm (u_arr x)) (avt (u_arr x)) ->
  ((exists r, to_u ratio units cm x = Ok r)
   <-> dim (u_unit x) = dim (given units (u_unit x))
       /\ (cm = None \/ acm (u_arr x) = cm
           \/ (avt (u_arr x) = true /\ exists c f, acf (u_arr x) = Some c /\ number_of c f))).
Proof.
  intros units cm [u [vals c0 cm0 vt0 co]] P. cbn [u_arr u_unit acm avt acf] in *.
  assert (C : forall v, exists vals', dim u = dim v -> (match units with None => Ok (mku u (mkarr vals c0 cm0 vt0 co)) | Some v => change_unit ratio v (mku u (mkarr vals c0 cm0 vt0 co)) end)
       = Ok (mku (given units u) (mkarr vals' c0 cm0 vt0 co)) \/ v <> given units u).
  { intro v. destruct units as [w|]; cbn [given].
    - exists (map (Rmult (size u / size w)) vals). intro D. destruct (OK u v) as (O1 & _).
      destruct (ratio u w) as [q|] eqn:Q.
      + left. apply change_ok. cbn [u_unit]. apply (change_cases w (mku u (mkarr vals c0 cm0 vt0 co)) (mku w (mkarr (map (Rmult q) vals) c0 cm0 vt0 co))).
        unfold change_unit. cbn [u_unit]. rewrite Q. reflexivity.
      + right. intro. subst v. rewrite (O1 D) in Q. discriminate.
    - exists vals. intro D. left. reflexivity. }
  destruct (C (given units u)) as (vals' & E). clear C.
  unfold to_u. cbn [u_arr avt acm].
  split.
  - intros (r & H). destruct (_ && _) eqn:Gd; [discriminate|].
    assert (D : dim u = dim (given units u)).
    { destruct units as [w|]; [|reflexivity]. cbn [given]. destruct (change_unit ratio w _) as [c|] eqn:Q in H; [|discriminate].
      apply (change_cases w (mku u (mkarr vals c0 cm0 vt0 co)) c Q). }
    split; [exact D|]. destruct (E D) as [E'|E']; [|congruence]. rewrite E' in H. cbn [bind] in H.
    destruct cm as [b|]; [|left; reflexivity]. right.
    destruct b; unfold on_arr, convert_to_comoving, convert_to_physical in H; cbn [u_arr acm avt acf avals acomp] in H.
    + inversion P; subst; cbn [negb orb] in *; [discriminate|left; reflexivity|]. destruct vt0; [|discriminate]. right. split; [reflexivity|].
      destruct c0 as [c|]; [|discriminate]. cbn [negb orb factor_of] in H. destruct (a_factor c) as [f|] eqn:F; [|discriminate].
      exists c, f. split; [reflexivity|apply number_iff; exact F].
    + inversion P; subst; [discriminate| |left; reflexivity]. right. split; [reflexivity|].
      destruct c0 as [c|]; [|discriminate]. cbn [negb orb factor_of] in H. destruct (a_factor c) as [f|] eqn:F; [|discriminate].
      exists c, f. split; [reflexivity|apply number_iff; exact F].
  - intros (D & H). destruct (E D) as [E'|E']; [|congruence]. rewrite E'. cbn [bind].
    destruct H as [->|[H|(V & c & f & A & F)]].
    + cbn [is_none negb andb]. eexists; reflexivity.
    + subst cm. assert (Q : cm_eqb cm0 cm0 = true) by (destruct cm0 as [[|]|]; reflexivity). rewrite Q, andb_false_r.
      destruct cm0 as [[|]|]; eexists; reflexivity.
    + subst vt0 c0. rewrite andb_false_r. cbn [andb]. apply number_iff in F.
      inversion P; subst; destruct cm as [[|]|]; unfold on_arr, convert_to_comoving, convert_to_physical; cbn [u_arr acm avt acf avals acomp negb orb factor_of];
        rewrite ?F; eexists; reflexivity.
Qed.

Lemma physical_same : forall units (x : uarr U) r, permitted (acm (u_arr x)) (avt (u_arr x)) ->
  (to_u ratio units (Some false) x = Ok r <-> to_physical_u ratio units x = Ok r)
  /\ (to_u ratio units (Some false) x = Ok r <-> convert_to_physical_u ratio units x = (r, Ok tt)).
Proof.
  intros units x r P. unfold to_u, to_physical_u, convert_to_physical_u, in_place.
  assert (C : change_unit ratio (or_unit units (u_unit x)) x = match units with None => Ok x | Some v => change_unit ratio v x end).
  { destruct units; [reflexivity|apply change_self]. }
  rewrite C. destruct (match units with None => Ok x | Some v => change_unit ratio v x end) as [c|] eqn:E.
  2:{ cbn [bind]. split; (split; intro H; [destruct (_ && _) in H; discriminate|]); [destruct (_ && _) in H; discriminate|discriminate]. }
  cbn [bind].
  assert (F : acm (u_arr c) = acm (u_arr x)).
  { destruct units as [v|]; [apply (worth_change v x c E)|]. injection E as <-. reflexivity. }
  destruct (acm (u_arr x)) as [[|]|] eqn:M; inversion P; subst; cbn [is_none is_true negb andb cm_eqb Bool.eqb].
  - split; [reflexivity|]. destruct (on_arr convert_to_physical c); split; intro J; try discriminate; injection J as <-; reflexivity.
  - rewrite !andb_false_r. split; [reflexivity|]. destruct (on_arr convert_to_physical c); split; intro J; try discriminate; injection J as <-; reflexivity.
  - assert (Q : on_arr convert_to_physical c = Err InvalidConversion).
    { unfold on_arr, convert_to_physical. rewrite F. reflexivity. }
    rewrite Q. split; split; discriminate.
Qed.

Lemma comoving_same : forall units (x : uarr U) r, permitted (acm (u_arr x)) (avt (u_arr x)) ->
  (to_u ratio units (Some true) x = Ok r <-> to_comoving_u ratio units x = Ok r)
  /\ (to_u ratio units (Some true) x = Ok r <-> convert_to_comoving_u ratio units x = (r, Ok tt)).
Proof.
  intros units x r P. unfold to_u, to_comoving_u, convert_to_comoving_u, in_place.
  assert (C : change_unit ratio (or_unit units (u_unit x)) x = match units with None => Ok x | Some v => change_unit ratio v x end).
  { destruct units; [reflexivity|apply change_self]. }
  rewrite C. destruct (match units with None => Ok x | Some v => change_unit ratio v x end) as [c|] eqn:E.
  2:{ cbn [bind]. split; (split; intro H; [destruct (_ && _) in H; discriminate|]); [destruct (_ && _) in H; discriminate|discriminate]. }
  cbn [bind].
  assert (F : acm (u_arr c) = acm (u_arr x) /\ avt (u_arr c) = avt (u_arr x)).
  { destruct units as [v|]; [split; apply (worth_change v x c E)|]. injection E as <-. split; reflexivity. }
  destruct F as (F & V).
  destruct (acm (u_arr x)) as [[|]|] eqn:M; inversion P; subst; cbn [is_none is_true is_false negb andb cm_eqb Bool.eqb].
  - split; [reflexivity|]. destruct (on_arr convert_to_comoving c); split; intro J; try discriminate; injection J as <-; reflexivity.
  - destruct (avt (u_arr x)) eqn:T; cbn [negb andb].
    + split; [reflexivity|]. destruct (on_arr convert_to_comoving c); split; intro J; try discriminate; injection J as <-; reflexivity.
    + assert (Q : on_arr convert_to_comoving c = Err InvalidConversion).
      { unfold on_arr, convert_to_comoving. rewrite F, V. reflexivity. }
      rewrite Q. split; split; discriminate.
  - assert (Q : on_arr convert_to_comoving c = Err InvalidConversion).
    { unfold on_arr, convert_to_comoving. rewrite F. cbn [negb]. rewrite orb_true_r. reflexivity. }
    rewrite Q. split; split; discriminate.
Qed.

Lemma in_place_fails : forall f units x r e, (f = convert_to_comoving \/ f = convert_to_physical) ->
  in_place ratio (on_arr f) units x = (r, Err e) ->
  worth S r = worth S x /\ (r = x \/ (dim (u_unit x) = dim (given units (u_unit x)) /\ u_unit r = given units (u_unit x))) /\ same_labels (u_arr r) (u_arr x)
  /\ acm (u_arr r) = acm (u_arr x).
Proof.
  intros f units x r e Hf H. unfold in_place in H.
  destruct (match units with None => Ok x | Some v => change_unit ratio v x end) as [c|] eqn:E; [|injection H as <- _; repeat split; left; reflexivity].
  destruct (on_arr f c); [discriminate|]. injection H as <- _.
  destruct units as [v|]; [|injection E as <-; repeat split; left; reflexivity].
  destruct (worth_change v x c E) as (W & V & M & L). split; [exact W|]. split; [right; split; [apply (change_cases v x c E)|exact V]|]. split; [exact L|exact M].
Qed.
End Converting.

Theorem C87_kept : forall U (S : unit_system U) ratio, correct S ratio -> forall units cm x r, to_u ratio units cm x = Ok r ->
  worth S r = worth S x /\ u_unit r = given units (u_unit x)
  /\ acm (u_arr r) = first_of cm (acm (u_arr x)) /\ same_labels (u_arr r) (u_arr x).
Proof. exact kept_in. Qed.

Theorem C87_accepts : forall U (S : unit_system U) ratio, correct S ratio ->
  forall units cm (x : uarr U), permitted (acm (u_arr x)) (avt (u_arr x)) ->
  ((exists r, to_u ratio units cm x = Ok r)
   <-> us_dim U S (u_unit x) = us_dim U S (given units (u_unit x))
       /\ (cm = None \/ acm (u_arr x) = cm
           \/ (avt (u_arr x) = true /\ exists c f, acf (u_arr x) = Some c /\ number_of c f))).
Proof. exact accepts_in. Qed.

(** The methods for one frame, and those that convert in place, do the same. *)
Theorem C87_same : forall U (S : unit_system U) ratio, correct S ratio ->
  forall units (x : uarr U) r, permitted (acm (u_arr x)) (avt (u_arr x)) ->
  (to_u ratio units (Some false) x = Ok r <-> to_physical_u ratio units x = Ok r)
  /\ (to_u ratio units (Some false) x = Ok r <-> convert_to_physical_u ratio units x = (r, Ok tt))
  /\ (to_u ratio units (Some true) x = Ok r <-> to_comoving_u ratio units x = Ok r)
  /\ (to_u ratio units (Some true) x = Ok r <-> convert_to_comoving_u ratio units x = (r, Ok tt)).
Proof.
  intros U S ratio OK units x r P. destruct (physical_same U S ratio OK units x r P) as (A & B).
  destruct (comoving_same U S ratio OK units x r P) as (C & D). repeat split; first [apply A|apply B|apply C|apply D].
Qed.

(** Bare values are the numbers of the converted array. *)
Theorem C87_value : forall U (ratio : U -> U -> res R) units cm x v,
  (to_value_u ratio units cm x = Ok v <-> exists r, to_u ratio units cm x = Ok r /\ avals (u_arr r) = v)
  /\ to_physical_value_u ratio units x = to_value_u ratio units (Some false) x
  /\ to_comoving_value_u ratio units x = to_value_u ratio units (Some true) x.
Proof.
  intros U ratio units cm x v. split; [|split; reflexivity]. unfold to_value_u. destruct (to_u ratio units cm x) as [r|]; cbn [bind].
  - split; [intro H; injection H as <-; exists r; split; reflexivity|]. intros (r' & H & <-). injection H as <-. reflexivity.
  - split; [discriminate|]. intros (r & H & _). discriminate.
Qed.

(** A conversion in place that fails leaves what the array is worth, its frame and its labels. *)
Theorem C87_failed : forall U (S : unit_system U) ratio, correct S ratio -> forall units x r e,
  (convert_to_comoving_u ratio units x = (r, Err e) \/ convert_to_physical_u ratio units x = (r, Err e)) ->
  worth S r = worth S x /\ acm (u_arr r) = acm (u_arr x) /\ same_labels (u_arr r) (u_arr x).
Proof.
  intros U S ratio OK units x r e [H|H].
  - destruct (in_place_fails U S ratio OK convert_to_comoving units x r e (or_introl eq_refl) H) as (A & _ & B & C). repeat split; first [exact A|exact C|apply B].
  - destruct (in_place_fails U S ratio OK convert_to_physical units x r e (or_intror eq_refl) H) as (A & _ & B & C). repeat split; first [exact A|exact C|apply B].
Qed.

(** But not its unit: a protected array asked to be comoving in another unit. *)
Theorem C87_failed_unit_refuted : forall U (S : unit_system U) ratio, correct S ratio -> forall x v,
  us_dim U S (u_unit x) = us_dim U S v -> avt (u_arr x) = false -> acm (u_arr x) = Some false ->
  exists r, convert_to_comoving_u ratio (Some v) x = (r, Err InvalidConversion) /\ u_unit r = v.
Proof.
  intros U S ratio OK x v D V M. unfold convert_to_comoving_u, in_place. rewrite (change_ok U S ratio OK v x D).
  unfold on_arr, convert_to_comoving. cbn [u_arr acm avt]. rewrite M, V. cbn [negb orb bind]. eexists. split; reflexivity.
Qed.

(** Arrays that may serve as comoving or physical ones. *)
Theorem C87_compatible : forall x c, acf x = Some c ->
  (compatible_comoving x = Ok true <-> acm x = Some true \/ number_of c 1)
  /\ (compatible_physical x = Ok true <-> acm x <> Some true \/ number_of c 1).
Proof.
  intros x c A. unfold compatible_comoving, compatible_physical, is_one. rewrite A.
  assert (N : number_of c 1 <-> (match a_factor c with Some f => Reqb f 1 | None => false end) = true).
  { rewrite number_iff. destruct (a_factor c) as [f|]; [|split; discriminate]. rewrite Reqb_true. split; [intro H; injection H as <-; reflexivity|congruence]. }
  rewrite N. destruct (match a_factor c with Some f => Reqb f 1 | None => false end); destruct (acm x) as [[|]|]; cbn [is_true negb]; split; split; intro H;
    try reflexivity; try (left; congruence); try (right; congruence); destruct H as [H|H]; congruence.
Qed.

(** * Concrete cases *)

Definition metres : unit_system nat.
Proof. refine (mkus nat (fun _ => 0%nat) (fun u => INR u + 1) _). intro u. pose proof (pos_INR u). lra. Defined.

Example correct_case : correct metres (fun u v => Ok ((INR u + 1) / (INR v + 1))).
Proof. intros u v. split; [intro; reflexivity|]. intro H. exfalso. apply H. reflexivity. Qed.

Example asked_case : asked (Some (mkcf (Some 1) (Some 2))) (Some 2) (Some 1) (Some (mkcf (Some 1) (Some 2)))
  /\ asked None (Some 2) (Some 1) (Some (mkcf (Some 1) (Some 2))).
Proof. split; constructor. apply alike_iff. apply cf_eq_refl. Qed.

(** Two quantities, a comoving and a physical one. *)
Example list_case : let x := mkarr [4] (Some (mkcf (Some 1) (Some (/ 2)))) (Some true) true CNone in
  let y := mkarr [3] (Some (mkcf (Some 1) (Some (/ 2)))) (Some false) true CNone in
  all_good (/ 2) 1 [x; y] /\ flat_map phys [x; y] = [2; 3].
Proof.
  cbv zeta. split.
  - intros z [<-|[<-|[]]]; constructor; cbn; (reflexivity || discriminate).
  - unfold phys. cbn [flat_map acm acf avals map app]. rewrite Rpower_1 by lra. f_equal. lra.
Qed.

Example array_case : permitted (Some true) true /\ permitted (Some false) false
  /\ moved (mkarr [4] (Some (mkcf (Some 1) (Some 2))) (Some true) true CNone) (mkcf (Some 1) (Some 2)) (Some false) (map (fun v => v * Rpower 2 1) [4]).
Proof. split; [constructor|]. split; [constructor|]. apply moved_physical; [reflexivity|constructor]. Qed.

Print Assumptions C86_factor.
Print Assumptions C86_numbers.
Print Assumptions C86_cosmo.
Print Assumptions C86_cosmo_meaning.
Print Assumptions C86_ignored_refuted.
Print Assumptions C86_lawful.
Print Assumptions C86_bypass_refuted.
Print Assumptions C86_bypass.
Print Assumptions C86_list.
Print Assumptions C86_list_relabelled_refuted.
Print Assumptions C86_plain_list.
Print Assumptions C86_list_protection_refuted.
Print Assumptions C86_quantity.
Print Assumptions C86_quantity_number.
Print Assumptions C86_quantity_relabelled_refuted.
Print Assumptions C86_quantity_factor_refuted.
Print Assumptions C86_foreign_refuted.
Print Assumptions C86_foreign.
Print Assumptions C87_pickle.
Print Assumptions C87_kept.
Print Assumptions C87_accepts.
Print Assumptions C87_same.
Print Assumptions C87_value.
Print Assumptions C87_failed.
Print Assumptions C87_failed_unit_refuted.
Print Assumptions C87_compatible.

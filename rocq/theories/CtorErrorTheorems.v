(** Every outcome of the constructors (C86) and of the conversions with units (C87). *)
From Coq Require Import String List ZArith Bool Reals Lra Lia.
From Verif Require Import Base BaseLemmas CosmoModel CosmoSpec CosmoProofs CosmoExactSpec CosmoExactTheorems CtorModel
  CtorSpec CtorTheorems CtorErrorSpec.
Import ListNotations.
Open Scope R_scope.

(** * C86 *)

Lemma parse_factored : forall c sf se, factored c sf se (parse_cf c sf se).
Proof.
  intros c sf se. destruct (parse_cf c sf se) as [r|e] eqn:P; [constructor; apply C86_factor; exact P|].
  unfold parse_cf in P.
  destruct c as [c|], sf as [s|], se as [k|]; cbn [create_from bind] in P; try discriminate; try (injection P as <-; constructor).
  - destruct (cf_eq (mkcf (Some k) (Some s)) c) eqn:E; [discriminate|]. injection P as <-. constructor.
    intro A. apply alike_iff in A. congruence.
  - destruct (cf_eq (mkcf (Some k) None) c) eqn:E; [discriminate|]. injection P as <-. constructor.
    intro A. apply alike_iff in A. congruence.
Qed.

Lemma factored_unique : forall c sf se r r', factored c sf se r -> factored c sf se r' -> r = r'.
Proof.
  assert (A : forall c sf se r, factored c sf se r -> parse_cf c sf se = r).
  { intros c sf se r H. destruct H as [c sf se r H|s|e|c s|c sf e H]; try reflexivity; [apply C86_factor; exact H|].
    unfold parse_cf. destruct (cf_eq (mkcf (Some e) sf) c) eqn:E; [apply alike_iff in E; contradiction|].
    destruct sf; cbn [create_from bind]; rewrite E; reflexivity. }
  intros c sf se r r' H H'. rewrite <- (A _ _ _ _ H). apply A. exact H'.
Qed.

(** Every outcome of the arguments for a factor. *)
Theorem C86_factor_exact : forall c sf se r, parse_cf c sf se = r <-> factored c sf se r.
Proof.
  intros c sf se r. split; [intros <-; apply parse_factored|]. intro H.
  apply (factored_unique c sf se _ _ (parse_factored c sf se) H).
Qed.

(** Every outcome without validation. *)
Theorem C86_bypass_exact : forall U (one : U) lu i k r, k_bypass k = true ->
  (new_array one lu i k = r
   <-> exists f, unchecked (k_cf k) (k_sf k) (k_se k) f
       /\ r = match f with
              | Err e => Err e
              | Ok c => Ok (mku (given (k_units k) one) (mkarr (numbers_of i) (Some c) (k_cm k) (k_vt k) (k_comp k)))
              end).
Proof.
  intros U one lu i k r B. unfold new_array. rewrite B. unfold bypass.
  assert (E : exists f, unchecked (k_cf k) (k_sf k) (k_se k) f
     /\ (match k_sf k with None => Ok (or_null (k_cf k))
         | Some s => match k_cf k with None => Err AttributeError | Some _ => create_from (Some s) (k_se k) end end) = f
     /\ forall g, unchecked (k_cf k) (k_sf k) (k_se k) g -> g = f).
  { destruct (k_sf k) as [s|].
    - destruct (k_cf k) as [c|].
      + destruct (k_se k) as [e|]; eexists; (split; [constructor|]); (split; [reflexivity|]); intros g G; inversion G; reflexivity.
      + eexists. split; [constructor|]. split; [reflexivity|]. intros g G; inversion G; reflexivity.
    - eexists. split; [constructor|]. split; [rewrite settled_null; reflexivity|]. intros g G; inversion G; reflexivity. }
  destruct E as (f & F & -> & Q). split.
  - intros <-. exists f. split; [exact F|]. destruct f; reflexivity.
  - intros (g & G & ->). rewrite (Q g G). destruct f; reflexivity.
Qed.

(** The errors of an array of numbers. *)
Theorem C86_numbers_errors : forall U (one : U) lu v k e, k_bypass k = false ->
  (new_array one lu (InNumbers v) k = Err e <-> numbers_refused k e).
Proof.
  intros U one lu v k e B. unfold new_array. rewrite B. unfold from_numbers. split.
  - intro H. pose proof (parse_factored (k_cf k) (k_sf k) (k_se k)) as P.
    destruct (parse_cf (k_cf k) (k_sf k) (k_se k)) as [c|e0]; cbn [bind] in H.
    2:{ injection H as ->. constructor. exact P. }
    destruct (k_cm k) as [[|]|] eqn:M; [|discriminate|discriminate].
    destruct (k_vt k) eqn:V; [discriminate|]. injection H as <-. apply (nr_flags k c P M V).
  - intros [e0 P|c P M V].
    + apply C86_factor_exact in P. rewrite P. reflexivity.
    + apply C86_factor_exact in P. rewrite P. cbn [bind]. rewrite M, V. reflexivity.
Qed.

(** The errors of an array made from a cosmo array, and of one made from a number. *)
Theorem C86_cosmo_errors : forall U (one : U) lu x k e, k_bypass k = false ->
  (new_array one lu (InCosmo x) k = Err e <-> cosmo_refused (u_arr x) k e)
  /\ (forall v, new_array one lu (InScalar v) k = Err ValueError).
Proof.
  intros U one lu x k e B. split; [|intro v; unfold new_array; rewrite B; reflexivity].
  unfold new_array. rewrite B. unfold from_cosmo.
  destruct (acf (u_arr x)) as [own|] eqn:O.
  2:{ cbn [bind]. split.
      - intro H. injection H as <-. constructor. exact O.
      - intros [_|own e0 A _|own c b e0 A _ _ _|own c A _ _ _]; try congruence; reflexivity. }
  cbn [bind].
  assert (W : (if cf_eq own null_cf then None else Some own) = (match cscale own with None => None | Some _ => Some own end)).
  { destruct (cf_eq own null_cf) eqn:E.
    - apply null_iff in E. rewrite E. reflexivity.
    - destruct (cscale own) eqn:E2; [reflexivity|]. apply null_iff in E2. congruence. }
  rewrite W. clear W. set (o := match cscale own with None => None | Some _ => Some own end).
  assert (Z : forall c : option cf, mkarr (avals (u_arr x)) (match c with Some c => Some c | None => Some own end) (acm (u_arr x)) (avt (u_arr x)) (acomp (u_arr x))
     = with_factor (u_arr x) (given c own)) by (intros [c|]; reflexivity).
  assert (C : forall b y, converted b y (if b then convert_to_comoving y else convert_to_physical y)).
  { intros [|] y; [apply comoving_converted|apply physical_converted]. }
  assert (F : forall b y z, converted b y (Ok z) -> acm z = Some b).
  { intros b y z H. inversion H; subst; [assumption|reflexivity]. }
  pose proof (parse_factored o (k_sf k) (k_se k)) as P.
  split.
  - intro H. destruct (parse_cf o (k_sf k) (k_se k)) as [c|e0]; cbn [bind] in H.
    2:{ injection H as ->. apply (cr_factor _ k own e O P). }
    rewrite Z in H. destruct (k_cm k) as [b|] eqn:M.
    + pose proof (C b (with_factor (u_arr x) (given c own))) as K.
      destruct (if b then convert_to_comoving (with_factor (u_arr x) (given c own)) else convert_to_physical (with_factor (u_arr x) (given c own))) as [w|e0] eqn:Ew; cbn [bind] in H.
      2:{ injection H as ->. apply (cr_convert _ k own c b e O P M K). }
      pose proof (F _ _ _ K) as Fw. rewrite Fw in H. destruct (verify (Some b) (k_vt k)) as [[]|e0] eqn:V; cbn [bind] in H; [discriminate|].
      injection H as ->. assert (e = InvalidConversion) as -> by (destruct b, (k_vt k); try discriminate; injection V as <-; reflexivity).
      apply (cr_flags _ k own c O P).
      * intros b' M'. rewrite M in M'. injection M' as <-. exists w. exact K.
      * rewrite M. cbn [first_of]. apply C28_verified_exact. exact V.
    + cbn [bind] in H. cbn [with_factor acm] in H. destruct (verify (acm (u_arr x)) (k_vt k)) as [[]|e0] eqn:V; cbn [bind] in H; [discriminate|].
      injection H as ->. assert (e = InvalidConversion) as -> by (destruct (acm (u_arr x)) as [[|]|], (k_vt k); try discriminate; injection V as <-; reflexivity).
      apply (cr_flags _ k own c O P).
      * intros b' M'. congruence.
      * rewrite M. cbn [first_of]. apply C28_verified_exact. exact V.
  - intro H. destruct H as [A|own' e0 A P'|own' c b e0 A P' M K|own' c A P' K V]; [congruence| | |];
      rewrite O in A; injection A as <-; apply C86_factor_exact in P'; unfold o; rewrite P'; cbn [bind]; [reflexivity| |]; rewrite Z.
    + rewrite M. pose proof (converted_unique _ _ _ _ (C b _) K) as ->. reflexivity.
    + destruct (k_cm k) as [b|] eqn:M.
      * destruct (K b eq_refl) as (y & Ky). pose proof (converted_unique _ _ _ _ (C b _) Ky) as ->. cbn [bind].
        rewrite (F _ _ _ Ky). cbn [first_of] in V. apply C28_verified_exact in V. rewrite V. reflexivity.
      * cbn [bind with_factor acm]. cbn [first_of] in V. apply C28_verified_exact in V. rewrite V. reflexivity.
Qed.

(** The errors of quantities: those of an array of the numbers with the arguments completed from the input, or more than one number. *)
Theorem C86_quantity_errors : forall U (one : U) lu k e, k_bypass k = false ->
  (forall l, new_quantity one lu (InList l) k = Err RuntimeError)
  /\ (forall v, new_quantity one lu (InScalar v) k = Err e <-> numbers_refused k e)
  /\ (forall v, new_quantity one lu (InNumbers v) k = Err e
       <-> numbers_refused k e \/ ((forall e', ~ numbers_refused k e') /\ (1 < length v)%nat /\ e = RuntimeError))
  /\ (forall x, let k' := mkkw (k_units k) (first_of (k_cf k) (acf (u_arr x))) (k_sf k) (k_se k)
                               (first_of (k_cm k) (acm (u_arr x))) (k_vt k) (k_comp k) false in
      new_quantity one lu (InCosmo x) k = Err e
       <-> numbers_refused k' e \/ ((forall e', ~ numbers_refused k' e') /\ (1 < length (avals (u_arr x)))%nat /\ e = RuntimeError)).
Proof.
  intros U one lu k e B. split; [intro l; unfold new_quantity; rewrite B; reflexivity|].
  (* the arguments as passed on *)
  assert (Q : forall k1 k2 : kwargs U, k_bypass k1 = false -> k_bypass k2 = false -> k_cf k1 = k_cf k2 -> k_sf k1 = k_sf k2 -> k_se k1 = k_se k2 -> k_cm k1 = k_cm k2 ->
     (k_cm k2 <> None -> k_vt k1 = k_vt k2) -> forall e, numbers_refused (U:=U) k1 e <-> numbers_refused k2 e).
  { intros k1 k2 _ _ E1 E2 E3 E4 E5 e'. split; intros [e0 P|c P M V].
    - apply nr_factor. rewrite E1, E2, E3 in P. exact P.
    - apply (nr_flags k2 c); [rewrite <- E1, <- E2, <- E3; exact P|congruence|]. rewrite <- E5; [exact V|congruence].
    - apply nr_factor. rewrite E1, E2, E3. exact P.
    - apply (nr_flags k1 c); [rewrite E1, E2, E3; exact P|congruence|]. rewrite E5; [exact V|congruence]. }
  assert (N : forall v (k1 : kwargs U) e, k_bypass k1 = false ->
     (do r <- new_array one lu (InNumbers v) k1; if (1 <? zlen (avals (u_arr r)))%Z then Err RuntimeError else Ok r) = Err e
     <-> numbers_refused (U:=U) k1 e \/ ((forall e', ~ numbers_refused k1 e') /\ (1 < length v)%nat /\ e = RuntimeError)).
  { intros v k1 e1 B1. destruct (new_array one lu (InNumbers v) k1) as [r|e0] eqn:R; cbn [bind].
    - assert (NR : forall e', ~ numbers_refused k1 e').
      { intros e' H. apply (C86_numbers_errors U one lu v k1 e' B1) in H. congruence. }
      pose proof (proj1 (C86_numbers U one lu v k1 r B1) R) as (c & _ & _ & ->). cbn [u_arr avals].
      destruct (1 <? zlen v)%Z eqn:L; unfold zlen in L.
      + apply Z.ltb_lt in L. split.
        * intro H. injection H as <-. right. repeat split; [exact NR|lia].
        * intros [H|(_ & _ & ->)]; [apply NR in H; contradiction|reflexivity].
      + apply Z.ltb_ge in L. split; [discriminate|]. intros [H|(_ & H & _)]; [apply NR in H; contradiction|lia].
    - pose proof (proj1 (C86_numbers_errors U one lu v k1 e0 B1) R) as H0. split.
      + intro H. injection H as <-. left. exact H0.
      + intros [H|(H & _)]; [|apply H in H0; contradiction]. apply (C86_numbers_errors U one lu v k1 e1 B1) in H. congruence. }
  set (kk := mkkw (k_units k) (k_cf k) (k_sf k) (k_se k) (k_cm k) (match k_cm k with Some _ => k_vt k | None => false end) (k_comp k) false).
  assert (KK : forall e, numbers_refused kk e <-> numbers_refused k e).
  { apply Q; try reflexivity; [exact B|]. cbn [kk k_vt k_cm]. destruct (k_cm k); [reflexivity|congruence]. }
  split; [|split].
  - intro v. unfold new_quantity. rewrite B. cbn [bind numbers_of]. fold kk. rewrite (N [v] kk e eq_refl), KK. cbn [length]. split; [|tauto].
    intros [H|(_ & H & _)]; [exact H|lia].
  - intro v. unfold new_quantity. rewrite B. cbn [bind numbers_of]. fold kk. rewrite (N v kk e eq_refl), KK.
    split; (intros [H|(H & H2)]; [left; exact H|right; split; [|exact H2]; intros e' H'; apply (H e'); apply KK; exact H']).
  - intros x k'. unfold new_quantity. rewrite B. cbn [bind numbers_of].
    assert (M : or_cm (k_cm k) (acm (u_arr x)) = first_of (k_cm k) (acm (u_arr x))) by (destruct (k_cm k); reflexivity).
    assert (CF : (match k_cf k with None => acf (u_arr x) | c => c end) = first_of (k_cf k) (acf (u_arr x))) by (destruct (k_cf k); reflexivity).
    rewrite M, CF. match goal with |- context [new_array one lu (InNumbers _) ?a] => set (k2 := a) end.
    assert (K2 : forall e, numbers_refused k2 e <-> numbers_refused k' e).
    { apply Q; try reflexivity. cbn [k' k2 k_vt k_cm]. destruct (first_of (k_cm k) (acm (u_arr x))); [reflexivity|congruence]. }
    rewrite (N (avals (u_arr x)) k2 e eq_refl), K2.
    split; (intros [H|(H & H2)]; [left; exact H|right; split; [|exact H2]; intros e' H'; apply (H e'); apply K2; exact H']).
Qed.

(** * C87 *)

Section Outcomes.
Variable U : Type.
Variable ratio : U -> U -> res R.

Lemma rescaled_unique : forall (x : uarr U) units r r', rescaled ratio x units r -> rescaled ratio x units r' -> r = r'.
Proof.
  intros x units r r' H H'. destruct H as [|v e H|v q H]; inversion H' as [|v' e' H0|v' q' H0]; subst; try reflexivity; rewrite H in H0; try discriminate;
    injection H0 as ->; reflexivity.
Qed.

Lemma change_rescaled : forall (x : uarr U) units,
  rescaled ratio x units (match units with None => Ok x | Some v => change_unit ratio v x end).
Proof.
  intros x [v|]; [|constructor]. unfold change_unit. destruct (ratio (u_unit x) v) as [q|e] eqn:E; cbn [bind]; [|constructor; exact E].
  apply (rs_done ratio x v q E).
Qed.

Lemma on_arr_reframed : forall b (x : uarr U), reframed b x (on_arr (if b then convert_to_comoving else convert_to_physical) x).
Proof.
  intros b x. unfold on_arr. assert (C : converted b (u_arr x) ((if b then convert_to_comoving else convert_to_physical) (u_arr x))).
  { destruct b; [apply comoving_converted|apply physical_converted]. }
  destruct ((if b then convert_to_comoving else convert_to_physical) (u_arr x)) as [y|e]; cbn [bind]; constructor; exact C.
Qed.

Lemma reframed_unique : forall b (x : uarr U) r r', reframed b x r -> reframed b x r' -> r = r'.
Proof.
  intros b x r r' [e H|y H] [e' H'|y' H']; pose proof (converted_unique _ _ _ _ H H'); congruence.
Qed.

Lemma both_unique : forall units b (x : uarr U) r r', both ratio units b x r -> both ratio units b x r' -> r = r'.
Proof.
  intros units b x r r' [e H|m r1 H K] [e' H'|m' r1' H' K']; pose proof (rescaled_unique _ _ _ _ H H') as E; try congruence.
  injection E as <-. eapply reframed_unique; eauto.
Qed.

Lemma both_done : forall units b (x : uarr U),
  both ratio units b x (do c <- match units with None => Ok x | Some v => change_unit ratio v x end;
                        on_arr (if b then convert_to_comoving else convert_to_physical) c).
Proof.
  intros units b x. pose proof (change_rescaled x units) as C.
  destruct (match units with None => Ok x | Some v => change_unit ratio v x end) as [m|e]; cbn [bind]; [|constructor; exact C].
  apply (bo_frame ratio units b x m _ C). apply on_arr_reframed.
Qed.

Lemma in_place_placed : forall units b (x : uarr U),
  placed ratio units b x (in_place ratio (on_arr (if b then convert_to_comoving else convert_to_physical)) units x).
Proof.
  intros units b x. unfold in_place. pose proof (change_rescaled x units) as C.
  destruct (match units with None => Ok x | Some v => change_unit ratio v x end) as [m|e]; [|constructor; exact C].
  pose proof (on_arr_reframed b m) as F.
  destruct (on_arr (if b then convert_to_comoving else convert_to_physical) m) as [y|e]; [apply (pl_done ratio units b x m y C F)|apply (pl_frame ratio units b x m e C F)].
Qed.

Lemma placed_unique : forall units b (x : uarr U) r r', placed ratio units b x r -> placed ratio units b x r' -> r = r'.
Proof.
  intros units b x r r' [e H|m e H K|m y H K] [e' H'|m' e' H' K'|m' y' H' K']; pose proof (rescaled_unique _ _ _ _ H H') as E; try congruence;
    injection E as <-; pose proof (reframed_unique _ _ _ _ K K'); congruence.
Qed.

Lemma to_u_asked : forall units cm (x : uarr U), asked_u ratio units x cm (to_u ratio units cm x).
Proof.
  intros units cm x. unfold to_u. destruct cm as [b|]; cbn [is_none negb andb].
  2:{ constructor. pose proof (change_rescaled x units) as C.
      destruct (match units with None => Ok x | Some v => change_unit ratio v x end); exact C. }
  assert (T : (do c <- match units with None => Ok x | Some v => change_unit ratio v x end;
     (if b then on_arr convert_to_comoving c else on_arr convert_to_physical c))
     = (do c <- match units with None => Ok x | Some v => change_unit ratio v x end;
        on_arr (if b then convert_to_comoving else convert_to_physical) c)) by (destruct b; reflexivity).
  assert (Q : cm_eqb (Some b) (acm (u_arr x)) = true <-> acm (u_arr x) = Some b).
  { destruct b, (acm (u_arr x)) as [[|]|]; cbn [cm_eqb Bool.eqb]; split; congruence. }
  destruct (avt (u_arr x)) eqn:V; cbn [negb andb].
  - apply au_done; [left; exact V|]. rewrite T. apply both_done.
  - destruct (cm_eqb (Some b) (acm (u_arr x))) eqn:E; cbn [negb].
    + apply au_done; [right; apply Q; reflexivity|]. rewrite T. apply both_done.
    + apply au_fixed; [exact V|]. intro A. apply Q in A. congruence.
Qed.

Lemma asked_u_unique : forall units cm (x : uarr U) r r', asked_u ratio units x cm r -> asked_u ratio units x cm r' -> r = r'.
Proof.
  intros units cm x r r' H H'. destruct H as [r H|b V A|b r V K]; inversion H' as [r0 H0|b0 V0 A0|b0 r0 V0 K0]; subst; try reflexivity.
  - eapply rescaled_unique; eauto.
  - destruct V0; congruence.
  - destruct V; congruence.
  - eapply both_unique; eauto.
Qed.

Lemma copies_u : forall units (x : uarr U),
  copied_u ratio units true x (to_comoving_u ratio units x) /\ copied_u ratio units false x (to_physical_u ratio units x).
Proof.
  intros units x. assert (G : or_unit units (u_unit x) = given units (u_unit x)) by (destruct units; reflexivity).
  unfold to_comoving_u, to_physical_u. rewrite G. split.
  - destruct (negb (avt (u_arr x)) && negb (is_false (acm (u_arr x)))) eqn:E.
    + apply andb_true_iff in E. destruct E as (E1 & E2). apply cu_fixed; [destruct (avt (u_arr x)); [discriminate|reflexivity]|].
      destruct (acm (u_arr x)) as [[|]|]; [left; reflexivity|discriminate|right; split; reflexivity].
    + apply cu_done; [|apply (both_done (Some (given units (u_unit x))) true x)].
      intros (V & A). rewrite V in E. destruct A as [A|(_ & A)]; rewrite A in E; discriminate.
  - destruct (negb (avt (u_arr x)) && is_true (acm (u_arr x))) eqn:E.
    + apply andb_true_iff in E. destruct E as (E1 & E2). apply cu_fixed; [destruct (avt (u_arr x)); [discriminate|reflexivity]|].
      left. destruct (acm (u_arr x)) as [[|]|]; [reflexivity|discriminate|discriminate].
    + apply cu_done; [|apply (both_done (Some (given units (u_unit x))) false x)].
      intros (V & A). rewrite V in E. destruct A as [A|(A & _)]; [rewrite A in E|]; discriminate.
Qed.

Lemma copied_u_unique : forall units b (x : uarr U) r r', copied_u ratio units b x r -> copied_u ratio units b x r' -> r = r'.
Proof.
  intros units b x r r' [V A|r0 N K] [V' A'|r0' N' K']; try reflexivity; try tauto. eapply both_unique; eauto.
Qed.
End Outcomes.

(** Every outcome of the conversions in place: the array afterwards and the exception. *)
Theorem C87_in_place_exact : forall U (ratio : U -> U -> res R) units x r,
  (convert_to_comoving_u ratio units x = r <-> placed ratio units true x r)
  /\ (convert_to_physical_u ratio units x = r <-> placed ratio units false x r).
Proof.
  intros U ratio units x r. split; split.
  - intros <-. apply (in_place_placed U ratio units true x).
  - intro H. apply (placed_unique U ratio units true x _ _ (in_place_placed U ratio units true x) H).
  - intros <-. apply (in_place_placed U ratio units false x).
  - intro H. apply (placed_unique U ratio units false x _ _ (in_place_placed U ratio units false x) H).
Qed.

(** Every outcome of the copies. *)
Theorem C87_copies_exact : forall U (ratio : U -> U -> res R) units x r,
  (to_comoving_u ratio units x = r <-> copied_u ratio units true x r)
  /\ (to_physical_u ratio units x = r <-> copied_u ratio units false x r).
Proof.
  intros U ratio units x r. destruct (copies_u U ratio units x) as (A & B). split; split.
  - intros <-. exact A.
  - apply (copied_u_unique U ratio units true x _ _ A).
  - intros <-. exact B.
  - apply (copied_u_unique U ratio units false x _ _ B).
Qed.

(** Every outcome of [to] and of the values it gives. *)
Theorem C87_to_exact : forall U (ratio : U -> U -> res R) units cm x,
  (forall r, to_u ratio units cm x = r <-> asked_u ratio units x cm r)
  /\ (forall v, to_value_u ratio units cm x = Ok v <-> exists r, asked_u ratio units x cm (Ok r) /\ v = avals (u_arr r))
  /\ (forall e, to_value_u ratio units cm x = Err e <-> asked_u ratio units x cm (Err e)).
Proof.
  intros U ratio units cm x.
  assert (A : forall r, to_u ratio units cm x = r <-> asked_u ratio units x cm r).
  { intro r. split; [intros <-; apply to_u_asked|]. apply (asked_u_unique U ratio units cm x _ _ (to_u_asked U ratio units cm x)). }
  split; [exact A|]. unfold to_value_u. split.
  - intro v. split.
    + intro H. destruct (to_u ratio units cm x) as [r|e] eqn:E; [|discriminate]. injection H as <-. exists r. split; [apply A; reflexivity|reflexivity].
    + intros (r & H & ->). apply A in H. rewrite H. reflexivity.
  - intro e. split.
    + intro H. destruct (to_u ratio units cm x) as [r|e'] eqn:E; [discriminate|]. injection H as ->. apply A. reflexivity.
    + intro H. apply A in H. rewrite H. reflexivity.
Qed.

(** Every outcome of the questions whether an array fits a frame. *)
Theorem C87_compatible_exact : forall x r,
  (compatible_comoving x = r <-> compatible true x r) /\ (compatible_physical x = r <-> compatible false x r).
Proof.
  assert (Q : forall c, is_one (Some c) = Ok true <-> number_of c 1).
  { intro c. unfold is_one. rewrite number_iff. destruct (a_factor c) as [f|]; [|split; discriminate]. split.
    - intro H. injection H as H. apply Reqb_true in H. congruence.
    - intro H. injection H as ->. f_equal. apply Reqb_true. reflexivity. }
  assert (T : forall c, exists t, is_one (Some c) = Ok t) by (intro c; unfold is_one; eexists; reflexivity).
  assert (U : forall b x r r', compatible b x r -> compatible b x r' -> r = r').
  { intros b x r r' [A|A F|c A F N|c A F N] [A'|A' F'|c' A' F' N'|c' A' F' N']; try reflexivity; try tauto; congruence. }
  assert (C : forall x, compatible true x (compatible_comoving x)).
  { intro x. unfold compatible_comoving. destruct (is_true (acm x)) eqn:E.
    - apply co_there. destruct (acm x) as [[|]|]; try discriminate. tauto.
    - assert (A : ~ (acm x = Some true <-> true = true)) by (intro A; rewrite (proj2 A eq_refl) in E; discriminate).
      destruct (acf x) as [c|] eqn:F; [|apply co_no_factor; assumption].
      destruct (T c) as ([|] & t); rewrite t.
      + apply (co_one true x c A F). apply Q. exact t.
      + apply (co_other true x c A F). intro N. apply Q in N. congruence. }
  assert (D : forall x, compatible false x (compatible_physical x)).
  { intro x. unfold compatible_physical. destruct (is_true (acm x)) eqn:E; cbn [negb].
    - assert (A : ~ (acm x = Some true <-> false = true)).
      { intro A. destruct (acm x) as [[|]|]; try discriminate. discriminate (proj1 A eq_refl). }
      destruct (acf x) as [c|] eqn:F; [|apply co_no_factor; assumption].
      destruct (T c) as ([|] & t); rewrite t.
      + apply (co_one false x c A F). apply Q. exact t.
      + apply (co_other false x c A F). intro N. apply Q in N. congruence.
    - apply co_there. split; [|discriminate]. intro A. rewrite A in E. discriminate. }
  intros x r. split; (split; [intros <-; auto|]); apply U; auto.
Qed.

(** ** Cases *)

(** A scale factor without an exponent: three different errors. *)
Example factor_errors : forall c s,
  parse_cf None (Some s) None = Err ValueError /\ parse_cf (Some c) (Some s) None = Err TypeError.
Proof. intros. split; apply C86_factor_exact; constructor. Qed.

(** A protected physical array with a unit that does not fit: asked for comoving numbers, [to] refuses the frame, [to_comoving] the unit. *)
Example error_order : forall v c co,
  let x := mku 0%nat (mkarr v (Some c) (Some false) false co) in
  let ratio := fun u w => if Nat.eqb u w then Ok 1 else Err RuntimeError in
  to_u ratio (Some 1%nat) (Some true) x = Err InvalidConversion
  /\ to_comoving_u ratio (Some 1%nat) x = Err RuntimeError
  /\ convert_to_comoving_u ratio (Some 1%nat) x = (x, Err RuntimeError).
Proof. intros. repeat split. Qed.

(** A frame that is refused in place leaves the unit changed. *)
Example unit_stays : forall v c co,
  let x := mku 0%nat (mkarr [v] (Some c) (Some false) false co) in
  convert_to_comoving_u (fun _ _ => Ok 1000) (Some 1%nat) x
  = (mku 1%nat (mkarr [1000 * v] (Some c) (Some false) false co), Err InvalidConversion).
Proof. intros. reflexivity. Qed.

Print Assumptions C86_factor_exact.
Print Assumptions C86_bypass_exact.
Print Assumptions C86_numbers_errors.
Print Assumptions C86_cosmo_errors.
Print Assumptions C86_quantity_errors.
Print Assumptions C87_in_place_exact.
Print Assumptions C87_copies_exact.
Print Assumptions C87_to_exact.
Print Assumptions C87_compatible_exact.

(** C108: what can be assigned to the fields of a writer. *)
From Coq Require Import String List ZArith Bool Reals QArith Qreals Lia Lra.
From Verif Require Import Base BaseLemmas CosmoModel CosmoSpec CosmoProofs CosmoHeapProofs.
From Verif Require Import WriterModel WriterSpec WriterProofs WriterFileProofs WriterHistProofs.
From Verif Require Import AssignModel AssignSpec.
Import ListNotations.
Open Scope R_scope.

(** ** Tables *)

Lemma measures_iff : forall name d d', measures name d ->
  dims_eq d d' <-> measures name d'.
Proof.
  intros name d d' H. split.
  - intros (A & B & C & D & E & F).
    inversion H as [? G|? G|? G|? G|? G]; subst; constructor;
      destruct G as (G1 & G2 & G3 & G4 & G5 & G6); unfold of_dimension;
      (split; [|split; [|split; [|split; [|split]]]]);
      match goal with
      | |- (dM _ == _)%Q => rewrite <- A; assumption
      | |- (dL _ == _)%Q => rewrite <- B; assumption
      | |- (dt _ == _)%Q => rewrite <- C; assumption
      | |- (dT _ == _)%Q => rewrite <- D; assumption
      | |- (dI _ == _)%Q => rewrite <- E; assumption
      | |- (dX _ == _)%Q => rewrite <- F; assumption
      end.
  - intro H'.
    inversion H as [? G|? G|? G|? G|? G]; subst;
    inversion H' as [? G'|? G'|? G'|? G'|? G']; subst;
      destruct G as (G1 & G2 & G3 & G4 & G5 & G6), G' as (K1 & K2 & K3 & K4 & K5 & K6);
      unfold dims_eq; rewrite G1, G2, G3, G4, G5, G6, K1, K2, K3, K4, K5, K6;
      repeat split; reflexivity.
Qed.

(** The fields of a type, with what they measure. *)
Lemma fields_of_type : forall t name,
  (must_have t name -> name <> "particle_ids"%string ->
   exists d, field_dims t name = Some d /\ measures name d /\ dims_eqb d d_none = false)
  /\ (name = "particle_ids"%string -> field_dims t name = Some d_none)
  /\ (~ must_have t name -> field_dims t name = None).
Proof.
  assert (P : forall t, required t = required 0 \/ required t = required 4 \/ required t = shared)
    by apply required_cases.
  intros t name. split; [|split].
  - intros H Hn. unfold field_dims.
    assert (Q : (t = 0 \/ t = 4 \/ (t <> 0 /\ t <> 4))%nat) by lia.
    unfold must_have in H. cbn [In] in H.
    destruct H as [[<-|[<-|[<-|[<-|[]]]]]|[[-> Ht]|[-> Ht]]]; try congruence.
    + exists d_length. split; [|split; [constructor; repeat split; reflexivity | reflexivity]].
      destruct Q as [-> | [-> | [Q1 Q2]]]; [reflexivity | reflexivity|].
      destruct t as [|[|[|[|[|t]]]]]; try contradiction; reflexivity.
    + exists d_velocity. split; [|split; [constructor; repeat split; reflexivity | reflexivity]].
      destruct Q as [-> | [-> | [Q1 Q2]]]; [reflexivity | reflexivity|].
      destruct t as [|[|[|[|[|t]]]]]; try contradiction; reflexivity.
    + exists d_mass. split; [|split; [constructor; repeat split; reflexivity | reflexivity]].
      destruct Q as [-> | [-> | [Q1 Q2]]]; [reflexivity | reflexivity|].
      destruct t as [|[|[|[|[|t]]]]]; try contradiction; reflexivity.
    + exists d_length. split; [|split; [constructor; repeat split; reflexivity | reflexivity]].
      destruct Ht as [-> | ->]; reflexivity.
    + exists d_specific_energy.
      split; [|split; [constructor; repeat split; reflexivity | reflexivity]].
      rewrite Ht. reflexivity.
  - intros ->. unfold field_dims. destruct t as [|[|[|[|[|t]]]]]; reflexivity.
  - intro H. unfold field_dims.
    destruct (find _ _) as [[n d]|] eqn:E; [|reflexivity]. exfalso. apply H.
    destruct (find_some _ _ E) as (Hin & Heq). cbn [fst] in Heq. apply String.eqb_eq in Heq. subst n.
    unfold must_have.
    destruct t as [|[|[|[|[|t]]]]]; cbn in Hin;
      repeat (destruct Hin as [Hin|Hin]; [apply (f_equal fst) in Hin; cbn in Hin; subst name; cbn; intuition|]);
      destruct Hin.
Qed.

Lemma upow_1' : forall u, 0 < u -> upow u 1 = u.
Proof. intros u H. unfold upow. replace (Q2R 1) with 1 by (unfold Q2R; cbn; field). apply Rpower_1. auto. Qed.
Lemma upow_2' : forall u, 0 < u -> upow u 2 = u * u.
Proof.
  intros u H. unfold upow. replace (Q2R 2) with (INR 2) by (unfold Q2R; cbn; field).
  rewrite Rpower_pow by auto. cbn. ring.
Qed.
Lemma upow_m1 : forall u, 0 < u -> upow u (-1) = / u.
Proof.
  intros u H. unfold upow. replace (Q2R (-1)) with (- (1)) by (unfold Q2R; cbn; field).
  rewrite Rpower_Ropp, Rpower_1 by auto. reflexivity.
Qed.
Lemma upow_m2 : forall u, 0 < u -> upow u (-2) = / (u * u).
Proof.
  intros u H. unfold upow. replace (Q2R (-2)) with (- INR 2) by (unfold Q2R; cbn; field).
  rewrite Rpower_Ropp, Rpower_pow by auto. cbn. rewrite Rmult_1_r. reflexivity.
Qed.

Lemma stored_base : forall s name d, proper s -> measures name d -> stored_in s name (base_unit s d).
Proof.
  intros s name d (P1 & P2 & P3 & P4 & P5 & P6) H.
  inversion H as [? G|? G|? G|? G|? G]; subst; destruct G as (G1 & G2 & G3 & G4 & G5 & G6);
    unfold base_unit;
    rewrite (upow_Qeq _ _ _ G1), (upow_Qeq _ _ _ G2), (upow_Qeq _ _ _ G3), (upow_Qeq _ _ _ G4),
      (upow_Qeq _ _ _ G5), (upow_Qeq _ _ _ G6);
    rewrite ?(upow_zero _ 0) by reflexivity;
    rewrite ?upow_1', ?upow_2', ?upow_m1, ?upow_m2 by auto.
  - replace (1 * uL s * 1 * 1 * 1 * 1) with (uL s) by ring. constructor.
  - replace (1 * uL s * 1 * 1 * 1 * 1) with (uL s) by ring. constructor.
  - replace (1 * uL s * / ut s * 1 * 1 * 1) with (uL s / ut s) by (unfold Rdiv; ring). constructor.
  - replace (uM s * 1 * 1 * 1 * 1 * 1) with (uM s) by ring. constructor.
  - replace (1 * (uL s * uL s) * / (ut s * ut s) * 1 * 1 * 1) with ((uL s * uL s) / (ut s * ut s))
      by (unfold Rdiv; ring). constructor.
Qed.

(** ** Assigning a quantity *)

Lemma comov_scaled : forall k x, comov (mkarr (map (fun v => v * k) (avals x)) (acf x) (acm x) (avt x) (acomp x))
  = map (fun v => v * k) (comov x).
Proof.
  intros k x. unfold comov. cbn [acm acf avals].
  destruct (acm x) as [[|]|]; [reflexivity| |reflexivity].
  destruct (acf x) as [[[e|] [a|]]|]; try reflexivity.
  rewrite !map_map. apply map_ext. intro v. unfold Rdiv. ring.
Qed.

Lemma conv_comov : forall x y, convert_to_comoving x = Ok y -> avals y = comov x
  /\ avt y = avt x /\ acomp y = acomp x.
Proof.
  intros x y H. destruct (conv_cases _ _ H) as [[-> Hc] | (Hc & e & a & Hf & ->)].
  - unfold comov. rewrite Hc. auto.
  - unfold comov. rewrite Hc, Hf. auto.
Qed.

Lemma conv_ok_iff : forall a x c, acf x = Some c -> cscale c = Some a ->
  (exists y, convert_to_comoving x = Ok y) <-> usable a x.
Proof.
  intros a x c Hc Hs. unfold usable, convert_to_comoving. split.
  - intros (y & H). exists c. split; [exact Hc|]. split; [exact Hs|].
    destruct (acm x) as [[|]|]; [auto| |rewrite orb_true_r in H; discriminate].
    right. split; [reflexivity|]. destruct (avt x); [|discriminate]. split; [reflexivity|].
    cbn [negb orb] in H. unfold factor_of, a_factor in H. rewrite Hc, Hs in H.
    destruct (cexpr c) as [k|]; [eauto|discriminate].
  - intros (c' & Hc' & _ & H). assert (c' = c) by congruence. subst c'.
    destruct H as [-> | (-> & -> & k & Hk)]; [eauto|].
    cbn [negb orb]. unfold factor_of, a_factor. rewrite Hc, Hk, Hs. cbn [bind]. eauto.
Qed.

(** C108.  A value is accepted by a field other than the IDs exactly if it is a cosmo array of
    what the field measures, whose label has the scale factor of the writer and that is
    comoving or can be made so. *)
Theorem C108_accepted : forall st i w t name g,
  nth_error (writers st) i = Some w -> must_have t name -> name <> "particle_ids"%string ->
  (exists st', assign st i t name g = (st', Ok tt))
  <-> exists l x, g = GArr l /\ nth_error (mem st) l = Some x /\ measures name (wdims x)
      /\ usable (w_a w) (wdata x).
Proof.
  intros st i w t name g Hw Hm Hn. unfold assign. rewrite Hw.
  destruct (proj1 (fields_of_type t name) Hm Hn) as (d & -> & Hd & Hdn).
  unfold setter. rewrite Hdn. cbn [negb].
  destruct g as [l|shape v].
  2:{ split; [intros (st' & H); discriminate | intros (l & x & H & _); discriminate]. }
  destruct (nth_error (mem st) l) as [x|] eqn:Ex.
  2:{ split; [intros (st' & H); discriminate|]. intros (l' & x' & H & Hx & _).
      inversion H; subst. congruence. }
  unfold check_scale. split.
  - intros (st' & H). destruct (acf (wdata x)) as [c|] eqn:Ec; [|discriminate].
    destruct (oreqb (cscale c) (Some (w_a w))) eqn:Es; [|discriminate]. apply oreqb_true in Es.
    destruct (dims_eqb (wdims x) d) eqn:Ed; [|discriminate]. apply dims_eqb_eq in Ed.
    exists l, x. split; [reflexivity|]. split; [exact Ex|]. split.
    + apply (proj1 (measures_iff name d (wdims x) Hd)).
      destruct Ed as (A & B & C & D & E & F). repeat split; symmetry; assumption.
    + destruct (convert_to_comoving (wdata (convert_to_base (w_sys w) x))) as [y|e] eqn:Ey; [|discriminate].
      destruct (proj1 (conv_ok_iff (w_a w) (wdata (convert_to_base (w_sys w) x)) c Ec Es)
                (ex_intro _ y Ey)) as (c' & U1 & U2 & U3).
      exists c'. auto.
  - intros (l' & x' & H & Hx & Hm' & c & Hc & Hs & Hu). inversion H; subst l'. clear H.
    assert (x' = x) by congruence. subst x'.
    rewrite Hc, Hs, oreqb_refl.
    assert (Ed : dims_eqb (wdims x) d = true).
    { apply dims_eqb_eq. apply (proj2 (measures_iff name (wdims x) d Hm')). exact Hd. }
    rewrite Ed.
    destruct (proj2 (conv_ok_iff (w_a w) (wdata (convert_to_base (w_sys w) x)) c Hc Hs)) as (y & Hy).
    { exists c. auto. }
    rewrite Hy. eauto.
Qed.

(** C108.  An accepted array is converted in place to the units of the writer and to comoving
    coordinates; the field refers to it; nothing else changes. *)
Theorem C108_held : forall st i w t name l x st',
  nth_error (writers st) i = Some w -> must_have t name -> name <> "particle_ids"%string ->
  proper (w_sys w) -> nth_error (mem st) l = Some x ->
  assign st i t name (GArr l) = (st', Ok tt) ->
  exists u y, stored_in (w_sys w) name u /\ nth_error (mem st') l = Some y /\ converted u x y
    /\ apart_from l (mem st) (mem st') /\ refers st st' i t name l.
Proof.
  intros st i w t name l x st' Hw Hm Hn Hp Hx H. unfold assign in H. rewrite Hw in H.
  destruct (proj1 (fields_of_type t name) Hm Hn) as (d & Hf & Hd & Hdn). rewrite Hf in H.
  pose proof (setter_cases st i w t name d (GArr l)) as Hcase. rewrite H in Hcase.
  inversion Hcase as [|? ? ? ? ? ? ? Hcc|l' x' c y Hg Hx' Hdx _ Hc Hs Hy Hst|? Hd0 _ Hst].
  2:{ exfalso. apply dims_eqb_eq in Hd0. congruence. }
  inversion Hg; subst l'. clear Hg. assert (x' = x) by congruence. subst x' st'. clear Hcase H Hx'.
  assert (Hmx : measures name (wdims x)).
  { apply (proj1 (measures_iff name d (wdims x) Hd)).
    destruct Hdx as (A & B & C & D & E & F). repeat split; symmetry; assumption. }
  assert (Hl : (l < length (mem st))%nat) by (apply nth_error_Some; congruence).
  assert (Hi : (i < length (writers st))%nat) by (apply nth_error_Some; congruence).
  exists (base_unit (w_sys w) (wdims x)), (set_data (convert_to_base (w_sys w) x) y).
  split; [apply stored_base; auto|].
  split; [apply nth_upd_same; exact Hl|].
  destruct (conv_comov _ _ Hy) as (Y1 & Y2 & Y3).
  destruct (conv_attrs _ _ Hy) as (Y4 & Y5 & _).
  split; [|split].
  - unfold converted. cbn [set_data wunit wdata wshape wdims wint convert_to_base].
    split; [reflexivity|]. split; [exact Y4|]. split.
    { rewrite Y1. cbn [convert_to_base wdata]. apply comov_scaled. }
    split.
    { rewrite <- (cgs_to_base (w_sys w) x). unfold cgs. cbn [set_data wdata wunit].
      rewrite (conv_phys _ _ Hy). reflexivity. }
    split; [reflexivity|]. split; [repeat split; reflexivity|]. split; [reflexivity|].
    split; [exact Y5|]. split; [exact Y2|exact Y3].
  - split; [apply upd_len|]. intros j Hj. apply nth_upd_other. auto.
  - split; [apply upd_len|]. split; [intros j Hj; apply nth_upd_other; auto|].
    exists w, (set_field w t name (Some l)).
    split; [exact Hw|]. split; [apply nth_upd_same; exact Hi|].
    split; [reflexivity|]. split; [reflexivity|]. split; [reflexivity|].
    cbn [set_field w_fields]. rewrite Nat.eqb_refl, String.eqb_refl. split; [reflexivity|].
    intros t' n' Hne. destruct (Nat.eqb t' t) eqn:E1; [|reflexivity].
    destruct (String.eqb n' name) eqn:E2; [|reflexivity].
    apply Nat.eqb_eq in E1. apply String.eqb_eq in E2. destruct Hne; contradiction.
Qed.

(** C108.  A refused value says why; the writers stay as they are.  If the array could not be
    made comoving it has nevertheless been converted to the units of the writer. *)
Theorem C108_refused : forall st i w t name g st' e,
  nth_error (writers st) i = Some w -> must_have t name -> name <> "particle_ids"%string ->
  proper (w_sys w) ->
  assign st i t name g = (st', Err e) ->
  refused (w_a w) name (mem st) g e /\ writers st' = writers st
  /\ (mem st' = mem st
      \/ exists l x u y, g = GArr l /\ nth_error (mem st) l = Some x /\ measures name (wdims x)
         /\ ~ usable (w_a w) (wdata x)
         /\ stored_in (w_sys w) name u /\ nth_error (mem st') l = Some y
         /\ apart_from l (mem st) (mem st')
         /\ wunit y = u /\ cgs y = cgs x /\ acm (wdata y) = acm (wdata x)
         /\ acf (wdata y) = acf (wdata x)
         /\ avals (wdata y) = map (fun v => v * (wunit x / u)) (avals (wdata x))).
Proof.
  intros st i w t name g st' e Hw Hm Hn Hp H. unfold assign in H. rewrite Hw in H.
  destruct (proj1 (fields_of_type t name) Hm Hn) as (d & Hf & Hd & Hdn). rewrite Hf in H.
  unfold setter in H. rewrite Hdn in H. cbn [negb] in H. unfold refused.
  destruct g as [l|shape v].
  2:{ apply (f_equal snd) in H as He. apply (f_equal fst) in H. cbn in H, He. subst st'.
      inversion He. auto. }
  destruct (nth_error (mem st) l) as [x|] eqn:Ex.
  2:{ apply (f_equal snd) in H as He. apply (f_equal fst) in H. cbn in H, He. subst st'.
      inversion He. auto. }
  unfold check_scale in H.
  destruct (acf (wdata x)) as [c|] eqn:Ec.
  2:{ inversion H; subst. split; [left; auto|]. auto. }
  destruct (oreqb (cscale c) (Some (w_a w))) eqn:Es.
  2:{ inversion H; subst. split; [|auto]. right. exists c. split; [reflexivity|]. left.
      split; [|reflexivity]. intro Hc. rewrite Hc, oreqb_refl in Es. discriminate. }
  apply oreqb_true in Es.
  destruct (dims_eqb (wdims x) d) eqn:Ed.
  2:{ inversion H; subst. split; [|auto]. right. exists c. split; [reflexivity|]. right. left.
      split; [exact Es|]. split; [|reflexivity]. intro Hc.
      apply (proj2 (measures_iff name (wdims x) d Hc)) in Hd. apply dims_eqb_eq in Hd. congruence. }
  apply dims_eqb_eq in Ed.
  assert (Hmx : measures name (wdims x)).
  { apply (proj1 (measures_iff name d (wdims x) Hd)).
    destruct Ed as (A & B & C & D & E & F). repeat split; symmetry; assumption. }
  destruct (convert_to_comoving (wdata (convert_to_base (w_sys w) x))) as [y|e'] eqn:Ey; [discriminate|].
  assert (He : e' = e) by (apply (f_equal snd) in H; cbn in H; congruence).
  apply (f_equal fst) in H. cbn [fst] in H. subst e' st'.
  assert (Hl : (l < length (mem st))%nat) by (apply nth_error_Some; congruence).
  split; [|split; [reflexivity|]].
  - right. exists c. split; [reflexivity|]. right. right. split; [exact Es|]. split; [exact Hmx|].
    unfold convert_to_comoving in Ey. cbn [convert_to_base wdata acm avt acf avals] in Ey.
    destruct (acm (wdata x)) as [[|]|]; [discriminate| |].
    + right. destruct (avt (wdata x)); cbn [negb orb] in Ey; [|inversion Ey; auto].
      right. unfold factor_of, a_factor in Ey. rewrite Ec, Es in Ey.
      destruct (cexpr c) as [k|]; cbn [bind] in Ey; inversion Ey. auto.
    + left. rewrite orb_true_r in Ey. inversion Ey. auto.
  - right. exists l, x, (base_unit (w_sys w) (wdims x)), (convert_to_base (w_sys w) x).
    split; [reflexivity|]. split; [exact Ex|]. split; [exact Hmx|]. split.
    { intro Hu. destruct (proj2 (conv_ok_iff (w_a w) (wdata (convert_to_base (w_sys w) x)) c Ec Es)) as (y & Hy).
      - destruct Hu as (c' & U). exists c'. exact U.
      - congruence. }
    split; [apply stored_base; auto|]. split; [apply nth_upd_same; exact Hl|].
    split; [split; [apply upd_len|intros j Hj; apply nth_upd_other; auto]|].
    split; [reflexivity|]. split; [apply cgs_to_base|]. split; [reflexivity|]. split; reflexivity.
Qed.

(** ** IDs *)

Lemma check_ids_ok : forall shape v,
  (check_ids "particle_ids" shape v = Ok tt <-> proper_ids shape v)
  /\ (check_ids "particle_ids" shape v = Ok tt \/ check_ids "particle_ids" shape v = Err ValueError).
Proof.
  intros shape v. unfold check_ids, proper_ids. cbn [String.eqb Ascii.eqb Bool.eqb].
  destruct (Nat.eqb (length shape) 1) eqn:E1; cbn [negb].
  2:{ split; [|auto]. split; [discriminate|]. intros ((n & ->) & _). discriminate. }
  apply Nat.eqb_eq in E1.
  destruct (existsb (fun x => Rleb x 0) v) eqn:E2.
  { split; [|auto]. split; [discriminate|]. intros (_ & _ & H). exfalso.
    apply existsb_exists in E2. destruct E2 as (x & Hx & E). specialize (H _ Hx).
    unfold Rleb in E. destruct (Rle_dec x 0); [lra|discriminate]. }
  destruct (distinctb v) eqn:E3; cbn [negb].
  - split; [|auto]. split; [|reflexivity]. intros _. split; [|split].
    + destruct shape as [|n [|]]; try discriminate. eauto.
    + apply distinctb_iff. exact E3.
    + intros x Hx. destruct (Rle_dec x 0) as [Hle|Hgt]; [|lra]. exfalso.
      assert (E : existsb (fun x => Rleb x 0) v = true).
      { apply existsb_exists. exists x. split; [exact Hx|]. unfold Rleb. destruct (Rle_dec x 0); auto. }
      congruence.
  - split; [|auto]. split; [discriminate|]. intros (_ & H & _). exfalso.
    apply distinctb_iff in H. congruence.
Qed.

Lemma isclose_one : forall f, isclose 1 f = true <-> almost_one f.
Proof.
  intro f. unfold isclose, almost_one, Rleb.
  replace (1 / 10 ^ 8 + 1 / 10 ^ 6 * Rabs f) with (1 / 100000000 + 1 / 1000000 * Rabs f)
    by (replace (10 ^ 8) with 100000000 by ring; replace (10 ^ 6) with 1000000 by ring; reflexivity).
  destruct (Rle_dec _ _); split; intro; auto; try discriminate; contradiction.
Qed.

Lemma wrap_cases : forall a x, check_scale a x = Ok tt ->
  ((exists y, wrap_dimensionless a x = Ok y) <-> id_label a (wdata x))
  /\ forall y, wrap_dimensionless a x = Ok y ->
       avals (wdata y) = comov (wdata x) /\ acf (wdata y) = acf (wdata x)
       /\ acm (wdata y) = Some true /\ avt (wdata y) = true
       /\ wshape y = wshape x /\ wdims y = wdims x /\ wunit y = wunit x.
Proof.
  intros a x Hc. unfold check_scale in Hc. unfold wrap_dimensionless.
  destruct (acf (wdata x)) as [[k [b|]]|] eqn:Ef; [| discriminate | discriminate].
  cbn [cscale] in Hc. destruct (oreqb (Some b) (Some a)) eqn:Eb; [|discriminate].
  apply oreqb_true in Eb. inversion Eb; subst b. clear Eb Hc.
  unfold cf_eq, a_factor, null_cf, cf_create. cbn [cscale cexpr]. cbn [oreqb andb]. rewrite Reqb_refl.
  cbn [andb].
  replace (Rpower a 0) with 1 by (unfold Rpower; rewrite Rmult_0_l, exp_0; reflexivity).
  destruct k as [k|].
  2:{ split; [|cbn [bind]; discriminate]. split; [intros (y & H); discriminate|].
      intros (k & H & _). rewrite Ef in H. discriminate. }
  destruct (isclose 1 (Rpower a k)) eqn:Ei; cbn [bind].
  2:{ split; [|discriminate]. split; [intros (y & H); discriminate|].
      intros (k' & H & Ha & _). rewrite Ef in H. inversion H; subst. apply isclose_one in Ha. congruence. }
  apply isclose_one in Ei.
  assert (Heta : mkarr (avals (wdata x)) (Some (mkcf (Some k) (Some a))) (acm (wdata x)) (avt (wdata x))
                       (acomp (wdata x)) = wdata x).
  { rewrite <- Ef. destruct (wdata x). reflexivity. }
  rewrite Heta.
  destruct (convert_to_comoving (wdata x)) as [z|e] eqn:Ez; cbn [bind].
  - destruct (conv_comov _ _ Ez) as (Z1 & Z2 & Z3). destruct (conv_attrs _ _ Ez) as (Z4 & Z5 & _).
    split.
    + split; [|eauto]. intros _.
      destruct (proj1 (conv_ok_iff a (wdata x) _ Ef eq_refl) (ex_intro _ z Ez)) as (c & U1 & U2 & U3).
      exists k. split; [exact Ef|]. split; [exact Ei|].
      destruct U3 as [U|(U & V & _)]; auto.
    + intros y Hy. inversion Hy. cbn [set_data wdata wshape wdims wunit avals acf acm avt].
      rewrite Z1, Z4, Z5. repeat (split; [first [reflexivity | exact Ef]|]). reflexivity.
  - split; [|discriminate]. split; [intros (y & H); discriminate|].
    intros (k' & H & Ha & U). exfalso.
    destruct (proj2 (conv_ok_iff a (wdata x) _ Ef eq_refl)) as (z & Hz); [|congruence].
    exists (mkcf (Some k) (Some a)). split; [exact Ef|]. split; [reflexivity|].
    destruct U as [U|(U & V)]; [auto|]. right. split; [exact U|]. split; [exact V|]. exists k. reflexivity.
Qed.

(** C108.  IDs are accepted exactly if they are a list of different positive numbers and, given as
    a cosmo array, have the scale factor of the writer and a label without effect. *)
Theorem C108_ids_accepted : forall st i w t g,
  nth_error (writers st) i = Some w ->
  (exists st', assign st i t "particle_ids" g = (st', Ok tt))
  <-> ((exists shape v, g = GPlain shape v /\ proper_ids shape v)
       \/ exists l x, g = GArr l /\ nth_error (mem st) l = Some x
          /\ proper_ids (wshape x) (avals (wdata x)) /\ id_label (w_a w) (wdata x)).
Proof.
  intros st i w t g Hw. unfold assign. rewrite Hw.
  rewrite (proj1 (proj2 (fields_of_type t "particle_ids"%string)) eq_refl).
  unfold setter. replace (dims_eqb d_none d_none) with true by reflexivity. cbn [negb].
  destruct g as [l|shape v].
  - destruct (nth_error (mem st) l) as [x|] eqn:Ex.
    2:{ split; [intros (st' & H); discriminate|].
        intros [(s & v & H & _)|(l' & x & H & Hx & _)]; [discriminate|].
        inversion H; subst. congruence. }
    destruct (check_scale (w_a w) x) as [[]|e] eqn:Ec.
    + destruct (wrap_cases _ _ Ec) as (W1 & _).
      destruct (check_ids_ok (wshape x) (avals (wdata x))) as (C1 & [C2|C2]); rewrite C2; cbn [bind].
      * destruct (wrap_dimensionless (w_a w) x) as [y|e] eqn:Ey.
        -- split; [|eauto]. intros _. right. exists l, x. split; [reflexivity|]. split; [exact Ex|].
           split; [apply C1; exact C2|]. apply W1. eauto.
        -- split; [intros (st' & H); discriminate|].
           intros [(s & v & H & _)|(l' & x' & H & Hx & _ & Hi)]; [discriminate|].
           inversion H; subst l'. assert (x' = x) by congruence. subst x'.
           apply W1 in Hi. destruct Hi as (y & Hy). discriminate.
      * split; [intros (st' & H); discriminate|].
        intros [(s & v & H & _)|(l' & x' & H & Hx & Hp & _)]; [discriminate|].
        inversion H; subst l'. assert (x' = x) by congruence. subst x'.
        apply C1 in Hp. congruence.
    + split; [intros (st' & H); discriminate|].
      intros [(s & v & H & _)|(l' & x' & H & Hx & _ & k & Hf & _)]; [discriminate|].
      inversion H; subst l'. assert (x' = x) by congruence. subst x'.
      unfold check_scale in Ec. rewrite Hf in Ec. cbn [cscale] in Ec. rewrite oreqb_refl in Ec. discriminate.
  - destruct (check_ids_ok shape v) as (C1 & [C2|C2]); rewrite C2; cbn [bind].
    + split; [|eauto]. intros _. left. exists shape, v. split; [reflexivity|]. apply C1. exact C2.
    + split; [intros (st' & H); discriminate|].
      intros [(s & v' & H & Hp)|(l' & x' & H & _)]; [|discriminate].
      inversion H; subst. apply C1 in Hp. congruence.
Qed.

(** C108.  Accepted IDs are held in a new array, comoving, with the numbers that were given; an
    array that was given keeps its unit, whatever that is.  Nothing else changes. *)
Theorem C108_ids_held : forall st i w t g st',
  nth_error (writers st) i = Some w ->
  assign st i t "particle_ids" g = (st', Ok tt) ->
  exists y, mem st' = mem st ++ [y] /\ refers st st' i t "particle_ids" (length (mem st))
    /\ acm (wdata y) = Some true /\ avt (wdata y) = true
    /\ (forall shape v, g = GPlain shape v -> wshape y = shape /\ avals (wdata y) = v
          /\ acf (wdata y) = Some (mkcf (Some 0) (Some (w_a w)))
          /\ of_dimension 0 0 0 (wdims y) /\ wunit y = 1)
    /\ (forall l x, g = GArr l -> nth_error (mem st) l = Some x ->
          wshape y = wshape x /\ avals (wdata y) = comov (wdata x)
          /\ acf (wdata y) = acf (wdata x) /\ wdims y = wdims x /\ wunit y = wunit x).
Proof.
  intros st i w t g st' Hw H. unfold assign in H. rewrite Hw in H.
  rewrite (proj1 (proj2 (fields_of_type t "particle_ids"%string)) eq_refl) in H.
  unfold setter in H. replace (dims_eqb d_none d_none) with true in H by reflexivity. cbn [negb] in H.
  assert (Hi : (i < length (writers st))%nat) by (apply nth_error_Some; congruence).
  assert (R : forall l m, refers st (mkstate m (upd i (set_field w t "particle_ids" (Some l)) (writers st)))
                i t "particle_ids" l).
  { intros l m. split; [apply upd_len|]. split; [intros j Hj; apply nth_upd_other; auto|].
    exists w, (set_field w t "particle_ids" (Some l)).
    split; [exact Hw|]. split; [apply nth_upd_same; exact Hi|].
    split; [reflexivity|]. split; [reflexivity|]. split; [reflexivity|].
    cbn [set_field w_fields]. rewrite Nat.eqb_refl, String.eqb_refl. split; [reflexivity|].
    intros t' n' Hne. destruct (Nat.eqb t' t) eqn:E1; [|reflexivity].
    destruct (String.eqb n' "particle_ids") eqn:E2; [|reflexivity].
    apply Nat.eqb_eq in E1. apply String.eqb_eq in E2. destruct Hne; contradiction. }
  destruct g as [l|shape v].
  - destruct (nth_error (mem st) l) as [x|] eqn:Ex; [|discriminate].
    destruct (check_scale (w_a w) x) as [[]|e] eqn:Ec; [|discriminate].
    destruct (check_ids _ _ _) as [[]|]; cbn [bind] in H; [|discriminate].
    destruct (wrap_dimensionless (w_a w) x) as [y|] eqn:Ey; [|discriminate].
    apply (f_equal fst) in H. cbn [fst] in H. subst st'.
    destruct (proj2 (wrap_cases _ _ Ec) y Ey) as (W1 & W2 & W3 & W4 & W5 & W6 & W7).
    exists y. split; [reflexivity|]. split; [apply R|]. split; [exact W3|]. split; [exact W4|].
    split; [intros; discriminate|]. intros l' x' Hl Hx. inversion Hl; subst l'.
    assert (x' = x) by congruence. subst x'. auto.
  - destruct (check_ids _ _ _) as [[]|]; cbn [bind] in H; [|discriminate].
    apply (f_equal fst) in H. cbn [fst] in H. subst st'.
    exists (wrap_plain (w_a w) shape v). split; [reflexivity|]. split; [apply R|].
    split; [reflexivity|]. split; [reflexivity|]. split; [|intros; discriminate].
    intros s' v' Hg. inversion Hg; subst. split; [reflexivity|]. split; [reflexivity|].
    split; [reflexivity|]. split; [repeat split; reflexivity | reflexivity].
Qed.

(** C108.  Refused IDs change nothing. *)
Theorem C108_ids_refused : forall st i w t g st' e,
  nth_error (writers st) i = Some w ->
  assign st i t "particle_ids" g = (st', Err e) ->
  st' = st
  /\ (forall shape v, g = GPlain shape v -> e = ValueError)
  /\ (forall l x, g = GArr l -> nth_error (mem st) l = Some x ->
        (acf (wdata x) = None /\ e = AttributeError)
        \/ exists c, acf (wdata x) = Some c
           /\ ((cscale c <> Some (w_a w) /\ e = AssertionErr)
               \/ (cscale c = Some (w_a w)
                   /\ ((~ proper_ids (wshape x) (avals (wdata x)) /\ e = ValueError)
                       \/ (proper_ids (wshape x) (avals (wdata x))
                           /\ (((~ exists k, cexpr c = Some k /\ almost_one (Rpower (w_a w) k))
                                /\ e = ValueError)
                               \/ ((exists k, cexpr c = Some k /\ almost_one (Rpower (w_a w) k))
                                   /\ (acm (wdata x) = None
                                       \/ (acm (wdata x) = Some false /\ avt (wdata x) = false))
                                   /\ e = InvalidConversion))))))).
Proof.
  intros st i w t g st' e Hw H. unfold assign in H. rewrite Hw in H.
  rewrite (proj1 (proj2 (fields_of_type t "particle_ids"%string)) eq_refl) in H.
  unfold setter in H. replace (dims_eqb d_none d_none) with true in H by reflexivity. cbn [negb] in H.
  destruct g as [l|shape v].
  - split; [|split; [intros; discriminate|]].
    + destruct (nth_error (mem st) l) as [x|]; [|inversion H; reflexivity].
      destruct (check_scale (w_a w) x) as [[]|]; [|inversion H; reflexivity].
      destruct (check_ids _ _ _) as [[]|]; cbn [bind] in H; [|inversion H; reflexivity].
      destruct (wrap_dimensionless (w_a w) x); inversion H; reflexivity.
    + intros l' x Hl Hx. inversion Hl; subst l'. rewrite Hx in H. unfold check_scale in H.
      destruct (acf (wdata x)) as [[k b]|] eqn:Ef.
      2:{ left. inversion H. auto. }
      right. exists (mkcf k b). split; [reflexivity|]. cbn [cscale] in *.
      destruct (oreqb b (Some (w_a w))) eqn:Eb.
      2:{ left. inversion H. split; [|reflexivity]. intro Hc. rewrite Hc, oreqb_refl in Eb. discriminate. }
      right. apply oreqb_true in Eb. split; [exact Eb|].
      destruct (check_ids_ok (wshape x) (avals (wdata x))) as (C1 & [C2|C2]); rewrite C2 in H; cbn [bind] in H.
      2:{ left. inversion H. split; [|reflexivity]. intro Hp. apply C1 in Hp. congruence. }
      right. split; [apply C1; exact C2|].
      unfold wrap_dimensionless in H. rewrite Ef in H. unfold cf_eq, a_factor, null_cf, cf_create in H.
      cbn [cscale cexpr] in H. subst b. cbn [oreqb andb] in H.
      rewrite Reqb_refl in H. cbn [andb] in H.
      replace (Rpower (w_a w) 0) with 1 in H by (unfold Rpower; rewrite Rmult_0_l, exp_0; reflexivity).
      cbn [cexpr].
      destruct k as [k|]; cbn [bind] in H.
      2:{ left. inversion H. split; [|reflexivity]. intros (k & Hk & _). discriminate. }
      destruct (isclose 1 (Rpower (w_a w) k)) eqn:Ei; cbn [bind] in H.
      2:{ left. inversion H. split; [|reflexivity]. intros (k' & Hk & Ha). inversion Hk; subst k'.
          apply isclose_one in Ha. congruence. }
      right. apply isclose_one in Ei. split; [exists k; auto|].
      unfold convert_to_comoving in H. cbn [acm avt acf avals acomp] in H.
      destruct (acm (wdata x)) as [[|]|]; cbn [bind] in H; [discriminate| |].
      * destruct (avt (wdata x)); cbn [negb orb] in H; [cbn in H; discriminate|].
        cbn [bind] in H. inversion H. auto.
      * rewrite orb_true_r in H. cbn [bind] in H. inversion H. auto.
  - destruct (check_ids_ok shape v) as (C1 & [C2|C2]); rewrite C2 in H; cbn [bind] in H; [discriminate|].
    inversion H. split; [reflexivity|]. split; [reflexivity|]. intros; discriminate.
Qed.

(** C108.  Names that are no fields of the type are let through and change nothing. *)
Theorem C108_other_names : forall st i w t name g,
  nth_error (writers st) i = Some w -> ~ must_have t name ->
  assign st i t name g = (st, Ok tt).
Proof.
  intros st i w t name g Hw Hm. unfold assign. rewrite Hw.
  rewrite (proj2 (proj2 (fields_of_type t name)) Hm). reflexivity.
Qed.

(** The assignments of histories (C31-C33, C52-C54, C107) are these. *)
Theorem C108_step : forall fz st i t name g,
  wstep fz st (OAssign i t name g) = (fst (assign st i t name g), None).
Proof.
  intros fz st i t name g. cbn [wstep]. unfold assign.
  destruct (nth_error (writers st) i) as [w|]; [|reflexivity].
  destruct (field_dims t name); reflexivity.
Qed.

(** ** Generated smoothing lengths *)

Lemma all_same_iff : forall l, all_same l = true <-> forall x y, In x l -> In y l -> x = y.
Proof.
  induction l as [|a [|b r] IH].
  - split; [intros _ x y []|reflexivity].
  - split; [|reflexivity]. intros _ x y [<-|[]] [<-|[]]. reflexivity.
  - change (all_same (a :: b :: r)) with (Reqb (b - a) 0 && all_same (b :: r)).
    rewrite andb_true_iff, IH. split.
    + intros (E & H). apply Reqb_true in E. assert (b = a) by lra. subst b.
      intros x y Hx Hy. apply H; [destruct Hx as [<-|Hx]; [left; reflexivity|exact Hx]
                                  | destruct Hy as [<-|Hy]; [left; reflexivity|exact Hy]].
    + intro H. split.
      * rewrite (H b a) by (cbn; auto). rewrite Rminus_diag_eq by reflexivity. apply Reqb_refl.
      * intros x y Hx Hy. apply H; right; assumption.
Qed.

Lemma has_smoothing : forall t, must_have t "smoothing_lengths" <-> (t = 0 \/ t = 4)%nat.
Proof.
  intro t. unfold must_have. split; [|auto].
  intros [H|[[_ H]|[H _]]]; [|exact H|discriminate].
  cbn in H. destruct H as [H|[H|[H|[H|[]]]]]; discriminate.
Qed.

(** The number of particles that a type has coordinates for. *)
Definition placed (st : state) (w : writer) (t : nat) (n : Z) : Prop :=
  exists l x r, w_fields w t "coordinates" = Some l /\ nth_error (mem st) l = Some x
    /\ wshape x = n :: r.

Lemma placed_lookup : forall st w t x n r, lookup st w t "coordinates" = Some x -> wshape x = n :: r ->
  placed st w t n.
Proof.
  intros st w t x n r H Hs. unfold lookup in H.
  destruct (w_fields w t "coordinates") as [l|] eqn:E; [|discriminate]. exists l, x, r. auto.
Qed.

(** What [generate] assigns. *)
Definition lengths (bx : warr) (n dimension : Z) (side : R) : warr :=
  mkwarr [n]
    (mkarr (map (fun one => 2 * (side / Rpower (IZR n) (1 / IZR dimension)) * one)
                (repeat 1 (Z.to_nat n)))
           (acf (wdata bx)) (acm (wdata bx)) (avt (wdata bx)) (acomp (wdata bx)))
    (wdims bx) (wunit bx) (wint bx).

Lemma generate_runs : forall st i w t bx dimension n side rest,
  nth_error (writers st) i = Some w -> (t = 0 \/ t = 4)%nat ->
  avals (wdata bx) = side :: rest -> (forall x y, In x (side :: rest) -> In y (side :: rest) -> x = y) ->
  placed st w t n ->
  generate st i t bx dimension
  = assign (mkstate (mem st ++ [lengths bx n dimension side]) (writers st)) i t "smoothing_lengths"
           (GArr (length (mem st))).
Proof.
  intros st i w t bx dimension n side rest Hw Ht Hb Hs (l & x & r & Hl & Hx & Hn).
  unfold generate. rewrite Hw.
  assert (Hd : field_dims t "smoothing_lengths" = Some d_length) by (destruct Ht; subst t; reflexivity).
  rewrite Hd, Hb. apply all_same_iff in Hs. rewrite Hs. cbn [negb].
  unfold lookup. rewrite Hl, Hx, Hn. reflexivity.
Qed.

(** C108.  Smoothing lengths are generated exactly for gas and stars in boxes of equal sides, once
    there are coordinates, if the box measures lengths and its label has the scale factor of the
    writer. *)
Theorem C108_generated : forall st i w t bx dimension,
  nth_error (writers st) i = Some w ->
  (exists st', generate st i t bx dimension = (st', Ok tt))
  <-> (t = 0 \/ t = 4)%nat /\ avals (wdata bx) <> []
      /\ (forall x y, In x (avals (wdata bx)) -> In y (avals (wdata bx)) -> x = y)
      /\ (exists n, placed st w t n)
      /\ measures "smoothing_lengths" (wdims bx) /\ usable (w_a w) (wdata bx).
Proof.
  intros st i w t bx dimension Hw. split.
  - intros (st' & H).
    assert (Ht : (t = 0 \/ t = 4)%nat).
    { unfold generate in H. rewrite Hw in H.
      destruct (field_dims t "smoothing_lengths") as [d|] eqn:E; [|discriminate].
      apply has_smoothing. destruct (Nat.eq_dec t 0) as [->|H0]; [apply has_smoothing; auto|].
      destruct (Nat.eq_dec t 4) as [->|H4]; [apply has_smoothing; auto|].
      exfalso. rewrite (proj2 (proj2 (fields_of_type t "smoothing_lengths"%string))) in E; [discriminate|].
      rewrite has_smoothing. lia. }
    split; [exact Ht|].
    pose proof H as H'. unfold generate in H'. rewrite Hw in H'.
    destruct (field_dims t "smoothing_lengths") as [d|]; [|discriminate].
    destruct (all_same (avals (wdata bx))) eqn:Es; cbn [negb] in H'; [|discriminate].
    destruct (avals (wdata bx)) as [|side rest] eqn:Eb; [discriminate|].
    destruct (lookup st w t "coordinates") as [x|] eqn:El; [|discriminate].
    destruct (wshape x) as [|n r] eqn:En; [discriminate|]. clear H'.
    pose proof (placed_lookup _ _ _ _ _ _ El En) as Hp.
    pose proof (proj1 (all_same_iff _) Es) as Hsame.
    split; [discriminate|]. split; [exact Hsame|]. split; [eauto|].
    rewrite (generate_runs st i w t bx dimension n side rest Hw Ht Eb Hsame Hp) in H.
    destruct (proj1 (C108_accepted (mkstate (mem st ++ [lengths bx n dimension side]) (writers st)) i w t
                "smoothing_lengths" (GArr (length (mem st)))
                Hw (proj2 (has_smoothing t) Ht) ltac:(discriminate)) (ex_intro _ st' H))
      as (l & y & Hg & Hy & Hm & Hu).
    inversion Hg; subst l. cbn [mem] in Hy. rewrite nth_app_last in Hy. inversion Hy; subst y.
    split; [exact Hm|exact Hu].
  - intros (Ht & Hne & Hsame & (n & Hp) & Hm & Hu).
    destruct (avals (wdata bx)) as [|side rest] eqn:Eb; [congruence|].
    rewrite (generate_runs st i w t bx dimension n side rest Hw Ht Eb Hsame Hp).
    apply (proj2 (C108_accepted (mkstate (mem st ++ [lengths bx n dimension side]) (writers st)) i w t
                    "smoothing_lengths" (GArr (length (mem st)))
                Hw (proj2 (has_smoothing t) Ht) ltac:(discriminate))).
    exists (length (mem st)), (lengths bx n dimension side). split; [reflexivity|].
    split; [apply nth_app_last|]. split; [exact Hm|exact Hu].
Qed.

(** C108.  The generated lengths are twice the mean distance of the particles: as many cubes of half
    their size as there are particles fill the box, in comoving coordinates. *)
Theorem C108_spacing : forall st i w t bx dimension st' n,
  nth_error (writers st) i = Some w -> proper (w_sys w) ->
  generate st i t bx dimension = (st', Ok tt) -> placed st w t n ->
  exists y, nth_error (mem st') (length (mem st)) = Some y
    /\ length (mem st') = S (length (mem st))
    /\ (forall j, (j < length (mem st))%nat -> nth_error (mem st') j = nth_error (mem st) j)
    /\ refers st st' i t "smoothing_lengths" (length (mem st))
    /\ acm (wdata y) = Some true /\ wunit y = uL (w_sys w) /\ wshape y = [n]
    /\ length (avals (wdata y)) = Z.to_nat n
    /\ forall h b, In h (avals (wdata y)) -> In b (comov (wdata bx)) ->
         0 < b -> 0 < wunit bx -> (0 < n)%Z -> (0 < dimension)%Z ->
         IZR n * Rpower (h / 2 * uL (w_sys w)) (IZR dimension) = Rpower (b * wunit bx) (IZR dimension).
Proof.
  intros st i w t bx dimension st' n Hw Hp H Hn.
  destruct (proj1 (C108_generated st i w t bx dimension Hw) (ex_intro _ st' H))
    as (Ht & Hne & Hsame & _ & Hm & Hu).
  destruct (avals (wdata bx)) as [|side rest] eqn:Eb; [congruence|].
  rewrite (generate_runs st i w t bx dimension n side rest Hw Ht Eb Hsame Hn) in H.
  set (st1 := mkstate (mem st ++ [lengths bx n dimension side]) (writers st)) in *.
  destruct (C108_held st1 i w t "smoothing_lengths" (length (mem st)) (lengths bx n dimension side) st'
              Hw (proj2 (has_smoothing t) Ht) ltac:(discriminate) Hp (nth_app_last _ _ _) H)
    as (u & y & Hst & Hy & Hc & (Hlen & Hap) & Hr).
  inversion Hst; subst u.
  destruct Hc as (C1 & C2 & C3 & C4 & C5 & C6 & C7 & C8 & C9 & C10).
  exists y. split; [exact Hy|].
  split; [rewrite Hlen; cbn [st1 mem]; rewrite app_length; cbn; lia|].
  split.
  { intros j Hj. rewrite Hap by lia. cbn [st1 mem]. apply nth_error_app1. exact Hj. }
  split; [exact Hr|]. split; [exact C2|]. split; [exact C1|].
  split; [rewrite C5; reflexivity|].
  assert (Hco : comov (wdata (lengths bx n dimension side))
    = repeat (2 * (hd 0 (comov (wdata bx)) / Rpower (IZR n) (1 / IZR dimension))) (Z.to_nat n)).
  { assert (Hrep : forall (f : R -> R) v k, map f (repeat v k) = repeat (f v) k)
      by (intros f v k; induction k as [|k IH]; [reflexivity|]; cbn; rewrite IH; reflexivity).
    unfold comov. cbn [lengths wdata acm acf avals]. rewrite Eb.
    destruct (acm (wdata bx)) as [[|]|];
      [| destruct (acf (wdata bx)) as [[[e|] [a|]]|] |];
      rewrite ?map_map, Hrep; cbn [map hd]; f_equal; field; auto using Rpower_nz. }
  split.
  { rewrite C3, map_length, Hco. apply repeat_length. }
  intros h b Hh Hb Hb0 Hu0 Hn0 Hd0.
  assert (Hbb : b = hd 0 (comov (wdata bx))).
  { unfold comov in *. rewrite Eb in *.
    destruct (acm (wdata bx)) as [[|]|]; [| destruct (acf (wdata bx)) as [[[e|] [a|]]|] |];
      cbn [map hd] in *;
      try (apply Hsame; [exact Hb | left; reflexivity]).
    destruct Hb as [<-|Hb]; [reflexivity|]. apply in_map_iff in Hb. destruct Hb as (z & <- & Hz).
    rewrite (Hsame z side) by (cbn; auto). reflexivity. }
  rewrite C3, Hco in Hh. apply in_map_iff in Hh. destruct Hh as (z & <- & Hz).
  apply repeat_spec in Hz. subst z. rewrite <- Hbb. cbn [lengths wunit].
  destruct Hp as (_ & P2 & _).
  assert (Hn1 : 0 < IZR n) by (apply IZR_lt; exact Hn0).
  assert (Hd1 : 0 < IZR dimension) by (apply IZR_lt; exact Hd0).
  replace (2 * (b / Rpower (IZR n) (1 / IZR dimension)) * (wunit bx / uL (w_sys w)) / 2 * uL (w_sys w))
    with (b * wunit bx * / Rpower (IZR n) (1 / IZR dimension))
    by (field; split; [apply Rgt_not_eq; exact P2 | apply Rpower_nz]).
  rewrite <- (Rpower_mult_distr (b * wunit bx) (/ Rpower (IZR n) (1 / IZR dimension)));
    [| apply Rmult_lt_0_compat; assumption | apply Rinv_0_lt_compat, exp_pos].
  rewrite <- Rpower_Ropp, Rpower_mult.
  replace (- (1 / IZR dimension) * IZR dimension) with (- (1)) by (field; lra).
  rewrite Rpower_Ropp, Rpower_1 by exact Hn1. field. lra.
Qed.

(** C108.  Why smoothing lengths are not generated. *)
Theorem C108_not_generated : forall st i w t bx dimension,
  nth_error (writers st) i = Some w ->
  (~ (t = 0 \/ t = 4)%nat -> generate st i t bx dimension = (st, Err RuntimeError))
  /\ ((t = 0 \/ t = 4)%nat ->
      ((exists x y, In x (avals (wdata bx)) /\ In y (avals (wdata bx)) /\ x <> y) ->
         generate st i t bx dimension = (st, Err ValueError))
      /\ (avals (wdata bx) = [] -> generate st i t bx dimension = (st, Err IndexError))
      /\ (w_fields w t "coordinates" = None -> avals (wdata bx) <> [] ->
          (forall x y, In x (avals (wdata bx)) -> In y (avals (wdata bx)) -> x = y) ->
          generate st i t bx dimension = (st, Err AttributeError))
      /\ (forall l x, w_fields w t "coordinates" = Some l -> nth_error (mem st) l = Some x ->
          wshape x = [] -> avals (wdata bx) <> [] ->
          (forall x y, In x (avals (wdata bx)) -> In y (avals (wdata bx)) -> x = y) ->
          generate st i t bx dimension = (st, Err IndexError))
      /\ (forall n st' e, placed st w t n -> avals (wdata bx) <> [] ->
          (forall x y, In x (avals (wdata bx)) -> In y (avals (wdata bx)) -> x = y) ->
          proper (w_sys w) ->
          generate st i t bx dimension = (st', Err e) ->
          refused (w_a w) "smoothing_lengths" [bx] (GArr 0) e
          /\ writers st' = writers st
          /\ forall j, (j < length (mem st))%nat -> nth_error (mem st') j = nth_error (mem st) j)).
Proof.
  intros st i w t bx dimension Hw. split.
  { intro Ht. unfold generate. rewrite Hw.
    rewrite (proj2 (proj2 (fields_of_type t "smoothing_lengths"%string))); [reflexivity|].
    rewrite has_smoothing. exact Ht. }
  intro Ht.
  assert (Hd : field_dims t "smoothing_lengths" = Some d_length) by (destruct Ht; subst t; reflexivity).
  split; [|split; [|split; [|split]]].
  - intros (x & y & Hx & Hy & Hne). unfold generate. rewrite Hw, Hd.
    destruct (all_same (avals (wdata bx))) eqn:E; [|reflexivity].
    exfalso. apply Hne. apply (proj1 (all_same_iff _) E); assumption.
  - intro Hb. unfold generate. rewrite Hw, Hd, Hb. reflexivity.
  - intros Hc Hne Hs. unfold generate. rewrite Hw, Hd. apply all_same_iff in Hs. rewrite Hs. cbn [negb].
    destruct (avals (wdata bx)); [congruence|]. unfold lookup. rewrite Hc. reflexivity.
  - intros l x Hc Hx Hsh Hne Hs. unfold generate. rewrite Hw, Hd. apply all_same_iff in Hs. rewrite Hs.
    cbn [negb]. destruct (avals (wdata bx)); [congruence|]. unfold lookup. rewrite Hc, Hx, Hsh. reflexivity.
  - intros n st' e Hn Hne Hs Hp H.
    destruct (avals (wdata bx)) as [|side rest] eqn:Eb; [congruence|].
    rewrite (generate_runs st i w t bx dimension n side rest Hw Ht Eb Hs Hn) in H.
    destruct (C108_refused (mkstate (mem st ++ [lengths bx n dimension side]) (writers st)) i w t
                "smoothing_lengths" (GArr (length (mem st))) st' e
                Hw (proj2 (has_smoothing t) Ht) ltac:(discriminate) Hp H) as (R1 & R2 & R3).
    split; [|split; [exact R2|]].
    + unfold refused in *. cbn [mem] in R1. rewrite nth_app_last in R1. exact R1.
    + intros j Hj. cbn [mem] in R3.
      destruct R3 as [-> | (l & x & u & y & Hg & _ & _ & _ & _ & _ & (_ & Ha) & _)].
      * apply nth_error_app1. exact Hj.
      * inversion Hg; subst l. rewrite Ha by lia. apply nth_error_app1. exact Hj.
Qed.

(** ** Files *)

(** C108.  In a history without changes in place and with one unit system, the datasets of a
    written file carry the exponents and the unit of what their fields measure. *)
Theorem C108_written : forall fz s l i st' f t g name d,
  Forall op_shaped l -> Forall no_mutation l -> Forall (one_system s) l -> proper s ->
  write fz (wrun fz init l) i = (st', Written f) ->
  In (t, g) (f_groups f) -> In (name, d) g -> name <> "particle_ids"%string ->
  measures name (mkdims (at_M (ds_attrs d)) (at_L (ds_attrs d)) (at_t (ds_attrs d))
                        (at_T (ds_attrs d)) (at_I (ds_attrs d)) 0)
  /\ stored_in s name (at_cgs (ds_attrs d)).
Proof.
  intros fz s l i st' f t g name d Hsh Hno Hone Hp H Hg Hd Hne.
  destruct (reachable fz _ Hsh) as (Hok & Hs).
  destruct (nth_error (writers (wrun fz init l)) i) as [w|] eqn:Hw.
  2:{ unfold write in H. rewrite Hw in H. discriminate. }
  destruct init_ok as (I1 & I2).
  destruct (run_fields fz s _ init Hsh Hno Hone I1 I2 (init_fields s)) as (Hf & _).
  destruct (write_cases _ _ _ _ _ _ Hok Hs Hw H) as
    [(er & Hc & _) | (w' & names & gen & Ho & Hwf)]; [discriminate|].
  symmetry in Hwf. unfold write_file in Hwf.
  destruct (all_ok _) as [ms|]; [|discriminate].
  destruct (write_groups fz st' w' names) as [gs|] eqn:Eg; [|discriminate].
  inversion Hwf; subst f. clear Hwf. cbn [f_groups] in Hg.
  destruct (write_groups_spec _ _ _ _ _ Eg) as (_ & Hgs).
  destruct (write_fields_spec _ _ _ _ _ _ (Hgs _ _ Hg)) as (Hreq & Hds).
  destruct (Hds _ _ Hd) as (x & at_ & Hx & Hat & ->).
  unfold lookup in Hx. destruct (w_fields w' t name) as [loc|] eqn:Hloc; [|discriminate].
  destruct (opened_fields fz s _ i w st' w' names gen Hf Hok Hw Ho t name loc x Hloc Hne Hx)
    as (Hgood & _).
  destruct Hgood as (d0 & Hin & Hdx & Hu & _).
  assert (Hmx : measures name (wdims x)).
  { assert (Hd0 : measures name d0).
    { clear - Hin Hne.
      destruct (required_cases t) as [E|[E|E]]; rewrite E in Hin; cbn in Hin;
        repeat (destruct Hin as [Hin|Hin];
                [apply (f_equal fst) in Hin as Hn; apply (f_equal snd) in Hin as Hd; cbn in Hn, Hd;
                 subst name d0; try congruence; constructor; repeat split; reflexivity|]);
        destruct Hin. }
    apply (proj1 (measures_iff name d0 (wdims x) Hd0)).
    destruct Hdx as (A & B & C & D & E & F). repeat split; symmetry; assumption. }
  unfold get_attributes in Hat. destruct (acf (wdata x)) as [c|]; [|discriminate].
  destruct (a_factor c) as [q|]; [|discriminate]. destruct (cexpr c) as [e|]; [|discriminate].
  inversion Hat; subst at_. cbn [ds_attrs at_M at_L at_t at_T at_I at_cgs]. split.
  - apply (proj1 (measures_iff name (wdims x) _ Hmx)).
    assert (Hx0 : (dX (wdims x) == 0)%Q) by (inversion Hmx as [? G|? G|? G|? G|? G]; apply G).
    repeat split; try reflexivity. exact Hx0.
  - rewrite Hu. apply stored_base; auto.
Qed.

(** C108.  A field whose label has no exponent cannot be written. *)
Theorem C108_unlabelled : forall fz x,
  (acf (wdata x) = None -> get_attributes fz x = Err AttributeError)
  /\ forall c, acf (wdata x) = Some c ->
     (cexpr c = None \/ cscale c = None <-> get_attributes fz x = Err TypeError)
     /\ (cexpr c <> None -> cscale c <> None -> exists r, get_attributes fz x = Ok r).
Proof.
  intros fz x. unfold get_attributes. split.
  - intros ->. reflexivity.
  - intros c ->. unfold a_factor. destruct (cexpr c) as [e|], (cscale c) as [a|].
    + split; [split; [intros [H|H]; discriminate|discriminate]|eauto].
    + split; [split; auto|congruence].
    + split; [split; auto|congruence].
    + split; [split; auto|congruence].
Qed.

(** ** Concrete cases *)

Definition sys_m : usys := mkusys 1 1000 1 1 1 1.
Definition some_writer : writer := mkwriter sys_m (1/2) [] (fun _ _ => None).
(** Physical positions in units of 100 cm, and masses. *)
Definition positions : warr :=
  mkwarr [1; 3]%Z (mkarr [1; 2; 3] (Some (mkcf (Some 1) (Some (1/2)))) (Some false) true CNone)
         (mkdims 0 1 0 0 0 0) 100 true.
Definition weights : warr :=
  mkwarr [2]%Z (mkarr [5; 7] (Some (mkcf (Some 0) (Some (1/2)))) (Some true) true CNone)
         (mkdims 1 0 0 0 0 0) 1 true.
Definition some_state : state := mkstate [positions; weights] [some_writer].

Lemma sys_m_proper : proper sys_m.
Proof. unfold proper. cbn. repeat split; lra. Qed.

(** The positions become comoving and are held in units of 1000 cm. *)
Example C108_example : exists st' y,
  assign some_state 0 0 "coordinates" (GArr 0) = (st', Ok tt)
  /\ nth_error (mem st') 0 = Some y /\ wunit y = 1000
  /\ avals (wdata y) = [2 / 10; 4 / 10; 6 / 10].
Proof.
  destruct (proj2 (C108_accepted some_state 0 some_writer 0 "coordinates" (GArr 0) eq_refl
              (or_introl (or_introl eq_refl)) ltac:(discriminate))) as (st' & H).
  { exists 0%nat, positions. split; [reflexivity|]. split; [reflexivity|]. split.
    - constructor. repeat split; reflexivity.
    - exists (mkcf (Some 1) (Some (1/2))). split; [reflexivity|]. split; [reflexivity|].
      right. split; [reflexivity|]. split; [reflexivity|]. exists 1. reflexivity. }
  destruct (C108_held some_state 0 some_writer 0 "coordinates" 0 positions st' eq_refl
              (or_introl (or_introl eq_refl)) ltac:(discriminate) sys_m_proper eq_refl H)
    as (u & y & Hu & Hy & (C1 & _ & C3 & _) & _).
  assert (Hu' : u = 1000) by (inversion Hu; reflexivity). rewrite Hu' in C1, C3.
  exists st', y. split; [exact H|]. split; [exact Hy|]. split; [exact C1|].
  rewrite C3. cbn [positions comov wdata acm acf avals map wunit].
  rewrite Rpower_1 by lra. f_equal; [lra|]. f_equal; [lra|]. f_equal. lra.
Qed.

(** Masses are refused as positions, and nothing changes. *)
Example C108_example_refused : forall g, g = GArr 1 \/ g = GPlain [2%Z] [5; 7] ->
  exists e, assign some_state 0 0 "coordinates" g = (some_state, Err e)
    /\ (g = GArr 1 -> e = InvalidUnit) /\ (g = GPlain [2%Z] [5; 7] -> e = TypeError).
Proof.
  intros g Hg. destruct Hg; subst g.
  - exists InvalidUnit. split; [|split; [reflexivity|discriminate]].
    unfold assign. cbn [some_state writers nth_error]. change (field_dims 0 "coordinates") with (Some d_length).
    unfold setter. cbn [some_state mem nth_error check_scale weights wdata acf cscale some_writer w_a].
    rewrite oreqb_refl. reflexivity.
  - exists TypeError. split; [reflexivity|]. split; [discriminate|reflexivity].
Qed.

(** C108.  The units of IDs are not looked at: masses are accepted. *)
Theorem C108_ids_units_refuted : exists st i w t l x st' y,
  nth_error (writers st) i = Some w /\ nth_error (mem st) l = Some x
  /\ ~ of_dimension 0 0 0 (wdims x)
  /\ assign st i t "particle_ids" (GArr l) = (st', Ok tt)
  /\ nth_error (mem st') (length (mem st)) = Some y /\ wdims y = wdims x.
Proof.
  destruct (proj2 (C108_ids_accepted some_state 0 some_writer 0 (GArr 1) eq_refl)) as (st' & H).
  { right. exists 1%nat, weights. split; [reflexivity|]. split; [reflexivity|]. split.
    - split; [exists 2%Z; reflexivity|]. split.
      + cbn. constructor; [intros [E|[]]; lra|]. constructor; [intros []|constructor].
      + cbn. intros x [<-|[<-|[]]]; lra.
    - exists 0. split; [reflexivity|]. split.
      + replace (Rpower (w_a some_writer) 0) with 1 by (unfold Rpower; rewrite Rmult_0_l, exp_0; reflexivity).
        unfold almost_one. rewrite Rminus_diag_eq, Rabs_R0, Rabs_R1 by reflexivity. lra.
      + left. reflexivity. }
  destruct (C108_ids_held some_state 0 some_writer 0 (GArr 1) st' eq_refl H)
    as (y & Hm & _ & _ & _ & _ & Hy).
  destruct (Hy 1%nat weights eq_refl eq_refl) as (_ & _ & _ & Hd & _).
  exists some_state, 0%nat, some_writer, 0%nat, 1%nat, weights, st', y.
  split; [reflexivity|]. split; [reflexivity|]. split.
  { intros (Hc & _). cbn in Hc. apply Qeq_bool_iff in Hc. discriminate. }
  split; [exact H|]. split; [|exact Hd].
  rewrite Hm. apply nth_app_last.
Qed.

(** Eight particles in a box of side 4000 cm: smoothing lengths of 4 units. *)
Definition box_of (k : option R) (cm : option bool) : warr :=
  mkwarr [3]%Z (mkarr [4; 4; 4] (Some (mkcf k (Some (1/2)))) cm true CNone)
         (mkdims 0 1 0 0 0 0) 1000 true.
Definition eight : state :=
  mkstate [mkwarr [8; 3]%Z (mkarr (repeat 1 24) (Some (mkcf (Some 1) (Some (1/2)))) (Some true) true CNone)
                  (mkdims 0 1 0 0 0 0) 1000 true]
          [mkwriter sys_m (1/2) [4; 4; 4]
             (fun t n => if Nat.eqb t 0 && String.eqb n "coordinates" then Some 0%nat else None)].

Example C108_example_generated : exists st' y,
  generate eight 0 0 (box_of (Some 1) (Some true)) 3 = (st', Ok tt)
  /\ nth_error (mem st') 1 = Some y /\ wshape y = [8%Z] /\ wunit y = 1000
  /\ forall h, In h (avals (wdata y)) -> 8 * Rpower (h / 2 * 1000) 3 = Rpower 4000 3.
Proof.
  set (w := mkwriter sys_m (1/2) [4; 4; 4]
             (fun t n => if Nat.eqb t 0 && String.eqb n "coordinates" then Some 0%nat else None)).
  assert (Hpl : placed eight w 0 8).
  { exists 0%nat. eexists. exists [3%Z]. split; [reflexivity|]. split; reflexivity. }
  destruct (proj2 (C108_generated eight 0 w 0 (box_of (Some 1) (Some true)) 3 eq_refl)) as (st' & H).
  { split; [left; reflexivity|]. split; [discriminate|]. split.
    - cbn. intros x y [<-|[<-|[<-|[]]]] [<-|[<-|[<-|[]]]]; reflexivity.
    - split; [exists 8%Z; exact Hpl|]. split; [constructor; repeat split; reflexivity|].
      eexists. split; [reflexivity|]. split; [reflexivity|]. left. reflexivity. }
  destruct (C108_spacing eight 0 w 0 (box_of (Some 1) (Some true)) 3 st' 8 eq_refl sys_m_proper H Hpl)
    as (y & Hy & _ & _ & _ & _ & Hu & Hs & _ & Hh).
  exists st', y. split; [exact H|]. split; [exact Hy|]. split; [exact Hs|]. split; [exact Hu|].
  intros h Hin. specialize (Hh h 4 Hin). cbn [w w_sys sys_m uL box_of wunit] in Hh.
  replace (4 * 1000) with 4000 in Hh by lra. apply Hh; try lra; try lia.
  cbn. left. reflexivity.
Qed.

(** C108.  The scale factor of the box is not looked at when a writer is made: a box of another
    one is accepted, and only generated smoothing lengths fail. *)
Theorem C108_box_label_refuted : forall s box a dimension c st n w',
  zlen (avals (wdata box)) = dimension -> acf (wdata box) = Some c -> cscale c <> Some a ->
  avals (wdata box) <> [] ->
  (forall x y, In x (avals (wdata box)) -> In y (avals (wdata box)) -> x = y) ->
  (exists w, new_writer s box dimension a = Ok w)
  /\ (nth_error (writers st) 0 = Some w' -> w_a w' = a -> placed st w' 0 n ->
      snd (generate st 0 0 (convert_to_base s box) dimension) = Err AssertionErr).
Proof.
  intros s box a dimension c st n w' Hz Hc Hs Hne Hsame. split.
  - unfold new_writer. rewrite (proj2 (Z.eqb_eq _ _) Hz). cbn [negb]. eauto.
  - intros Hw Ha Hp.
    destruct (avals (wdata box)) as [|side rest] eqn:Eb; [congruence|].
    set (k := wunit box / base_unit s (wdims box)).
    assert (Eb' : avals (wdata (convert_to_base s box)) = side * k :: map (fun v => v * k) rest)
      by (cbn [convert_to_base wdata avals]; rewrite Eb; reflexivity).
    rewrite (generate_runs st 0 w' 0 (convert_to_base s box) dimension n (side * k)
               (map (fun v => v * k) rest) Hw (or_introl eq_refl) Eb').
    + unfold assign. cbn [writers]. rewrite Hw. change (field_dims 0 "smoothing_lengths") with (Some d_length).
      unfold setter. cbn [mem]. rewrite nth_app_last. unfold check_scale.
      cbn [lengths wdata acf convert_to_base]. rewrite Hc, Ha.
      destruct (oreqb (cscale c) (Some a)) eqn:E; [|reflexivity].
      apply oreqb_true in E. contradiction.
    + assert (A : forall x, In x (side * k :: map (fun v => v * k) rest) -> x = side * k).
      { intros x [<-|Hx]; [reflexivity|]. apply in_map_iff in Hx. destruct Hx as (v & <- & Hv).
        rewrite (Hsame v side) by (cbn; auto). reflexivity. }
      intros x y Hx Hy. rewrite (A _ Hx), (A _ Hy). reflexivity.
    + exact Hp.
Qed.

(** C108.  A writer is made exactly if the box has as many sides as there are dimensions; it has no
    fields yet. *)
Theorem C108_new_writer : forall s box dimension a,
  (zlen (avals (wdata box)) = dimension ->
   exists w, new_writer s box dimension a = Ok w /\ w_sys w = s /\ w_a w = a
     /\ w_box w = map (fun v => v * (wunit box / base_unit s (wdims box))) (avals (wdata box))
     /\ forall t name, w_fields w t name = None)
  /\ (zlen (avals (wdata box)) <> dimension -> new_writer s box dimension a = Err ValueError).
Proof.
  intros s box dimension a. unfold new_writer. split; intro H.
  - rewrite (proj2 (Z.eqb_eq _ _) H). cbn [negb]. eexists. split; [reflexivity|]. auto.
  - rewrite (proj2 (Z.eqb_neq _ _) H). reflexivity.
Qed.

(** The box of the example above and a writer with scale factor 1/4. *)
Example C108_example_box : exists w, new_writer sys_m (box_of (Some 1) (Some true)) 3 (1/4) = Ok w
  /\ snd (generate (mkstate (mem eight) [mkwriter sys_m (1/4) [4; 4; 4] (fun _ _ => Some 0%nat)]) 0 0
            (convert_to_base sys_m (box_of (Some 1) (Some true))) 3) = Err AssertionErr.
Proof.
  destruct (C108_box_label_refuted sys_m (box_of (Some 1) (Some true)) (1/4) 3 (mkcf (Some 1) (Some (1/2)))
    (mkstate (mem eight) [mkwriter sys_m (1/4) [4; 4; 4] (fun _ _ => Some 0%nat)]) 8
    (mkwriter sys_m (1/4) [4; 4; 4] (fun _ _ => Some 0%nat))) as ((w & Hw) & H).
  - reflexivity.
  - reflexivity.
  - cbn. intro H. inversion H. lra.
  - discriminate.
  - cbn. intros x y [<-|[<-|[<-|[]]]] [<-|[<-|[<-|[]]]]; reflexivity.
  - exists w. split; [exact Hw|]. apply H; [reflexivity | reflexivity|].
    exists 0%nat. eexists. exists [3%Z]. split; [reflexivity|]. split; reflexivity.
Qed.

Print Assumptions C108_accepted.
Print Assumptions C108_held.
Print Assumptions C108_refused.
Print Assumptions C108_ids_accepted.
Print Assumptions C108_ids_held.
Print Assumptions C108_ids_refused.
Print Assumptions C108_other_names.
Print Assumptions C108_step.
Print Assumptions C108_generated.
Print Assumptions C108_spacing.
Print Assumptions C108_not_generated.
Print Assumptions C108_written.
Print Assumptions C108_ids_units_refuted.
Print Assumptions C108_box_label_refuted.
Print Assumptions C108_new_writer.
Print Assumptions C108_unlabelled.

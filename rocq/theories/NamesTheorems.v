(** Names of fields, columns and groups: C34, C57, C58. *)
From Coq Require Import String Ascii List Arith ZArith QArith Bool Lia.
From Verif Require Import Base NamesModel NamesSpec NamesProofs.
Import ListNotations.
Open Scope nat_scope.

(** C34.  The attribute name is the field name in lower case with an underscore before
    each new word, and nothing else. *)
Theorem C34_snake_case : forall n ws, (forall i, In i ws <-> word_start n i) ->
  snake n = flat_map (fun i => (if in_dec Nat.eq_dec i ws then [underscore] else [])
                               ++ match nth_error n i with Some c => [lower_char c] | None => [] end)
                     (seq 0 (length n)).
Proof.
  intros n ws Hws. rewrite snake_positions. apply flat_map_ext. intro i. f_equal.
  destruct (in_dec Nat.eq_dec i ws) as [I|I].
  - apply Hws in I. apply starts_iff in I. rewrite I. reflexivity.
  - destruct (starts n i) eqn:E; [|reflexivity]. apply starts_iff in E. apply Hws in E. contradiction.
Qed.

(** The classes of characters and the change of case are those of the alphabet. *)
Theorem C34_alphabet : forall c,
  (is_upper c = true <-> In c capitals) /\ (is_lower c = true <-> In c smalls) /\ (is_digit c = true <-> In c digits)
  /\ (forall d, lower_char c = d <-> lowered c d) /\ (forall d, upper_char c = d <-> raised c d).
Proof.
  intro c. repeat split; first [apply upper_iff|apply low_iff|apply digit_iff|apply lowered_iff|apply raised_iff].
Qed.

Theorem C34_no_upper : forall n, no_upper (snake n).
Proof. exact snake_no_upper. Qed.

Theorem C34_unchanged_iff : forall n, snake n = n <-> no_upper n.
Proof.
  intro n. split.
  - rewrite snake_eq. apply snake_inj_lower.
  - apply snake_same.
Qed.

Theorem C34_idempotent : forall n, snake (snake n) = snake n.
Proof. intro n. apply snake_same. apply snake_no_upper. Qed.

(** No letter is lost: apart from underscores the names are equal up to case. *)
Theorem C34_letters_kept : forall n,
  filter (fun c => negb (Ascii.eqb c underscore)) (snake n)
  = map lower_char (filter (fun c => negb (Ascii.eqb c underscore)) n).
Proof. intro n. rewrite snake_eq. apply drop_us_snake. Qed.

(** Different CamelCase names stay different. *)
Theorem C34_camel_injective : forall m n, camel m -> camel n -> snake m = snake n -> m = n.
Proof.
  intros m n Hm Hn H. rewrite <- (camelise_snake m Hm), <- (camelise_snake n Hn), H. reflexivity.
Qed.

Example C34_example : camel (txt "ElementMassFractions")
  /\ snake (txt "ElementMassFractions") = txt "element_mass_fractions"
  /\ snake (txt "XrayPhotonLuminosities2D") = txt "xray_photon_luminosities2_d".
Proof.
  split; [|split; reflexivity]. split; [|split].
  - eexists. eexists. split; [reflexivity|reflexivity].
  - cbn. intro H. repeat destruct H as [H|H]; try discriminate H; contradiction.
  - intros i c H1 H2 H3. apply starts_iff.
    do 20 (destruct i as [|i]; [cbn in H2; inversion H2; subst c; first [discriminate H3 | lia | reflexivity]|]).
    cbn in H2. destruct i; discriminate.
Qed.

(** Other names can collide: acronyms, names differing by an underscore or by case. *)
Theorem C34_collision_refuted :
  (txt "XRayLuminosities" <> txt "XrayLuminosities"
   /\ snake (txt "XRayLuminosities") = snake (txt "XrayLuminosities"))
  /\ (txt "Num_Part" <> txt "NumPart" /\ snake (txt "Num_Part") = snake (txt "NumPart")).
Proof. repeat split; try reflexivity; discriminate. Qed.

(** C57.  An attribute gives the last field (in file order) whose name becomes it; so
    when names collide the earlier fields cannot be read under any name. *)
Theorem C57_last_field_wins : forall fields attr i,
  field_of fields attr = Some i <-> last_named snake fields attr i.
Proof.
  intros fields attr i. unfold field_of, attributes.
  rewrite <- (map_length snake fields). rewrite dict_get_spec, Nat.sub_0_r, last_named_map.
  split; [intros (_ & H); exact H | intro H; split; [lia|exact H]].
Qed.

Theorem C57_every_attribute_has_a_field : forall fields n,
  In n fields -> exists i, field_of fields (snake n) = Some i.
Proof.
  intros fields n H. destruct (field_of fields (snake n)) as [i|] eqn:E; [eauto|].
  exfalso. unfold field_of, attributes in E. rewrite <- (map_length snake fields) in E.
  apply (dict_get_None (map snake fields) (snake n)); [intros i; congruence|]. apply in_map. exact H.
Qed.

Theorem C57_unreachable_iff : forall fields i n, nth_error fields i = Some n ->
  (forall attr, field_of fields attr <> Some i)
  <-> exists j m, i < j /\ nth_error fields j = Some m /\ snake m = snake n.
Proof.
  intros fields i n Hn. split.
  - intro H. destruct (C57_every_attribute_has_a_field fields n) as (j & Hj); [eapply nth_error_In; eauto|].
    apply C57_last_field_wins in Hj. destruct Hj as ((m & Hm & Em) & Hlast).
    destruct (Nat.lt_trichotomy i j) as [L|[->|L]].
    + exists j, m. auto.
    + exfalso. apply (H (snake n)). apply C57_last_field_wins. split; [exists m; auto|exact Hlast].
    + exfalso. apply (Hlast i n L Hn). reflexivity.
  - intros (j & m & L & Hm & Em) attr Ha. apply C57_last_field_wins in Ha.
    destruct Ha as ((n' & Hn' & En) & Hlast). assert (n' = n) by congruence. subst n'.
    apply (Hlast j m L Hm). congruence.
Qed.

(** With CamelCase names every field has its own attribute. *)
Theorem C57_camel_all_reachable : forall fields i n,
  NoDup fields -> Forall camel fields -> nth_error fields i = Some n ->
  field_of fields (snake n) = Some i.
Proof.
  intros fields i n Hd Hc Hn. apply C57_last_field_wins. split; [exists n; auto|].
  intros j m L Hm E. rewrite Forall_forall in Hc.
  assert (m = n) by (apply C34_camel_injective; auto; apply Hc; eapply nth_error_In; eauto).
  subst m. rewrite NoDup_nth_error in Hd. apply (Nat.lt_neq i j L). apply Hd; [|congruence].
  apply nth_error_Some. congruence.
Qed.

(** Columns: they are all put in lower case or all left alone; an empty list of names
    is a division by zero. *)
Theorem C57_columns : forall columns attr r,
  column_of columns attr = r ->
  (columns = [] /\ r = Err ZeroDivision)
  \/ (exists conv, (conv = lower \/ conv = (fun n => n))
      /\ exists o, r = Ok o /\ forall i, o = Some i <-> last_named conv columns attr i).
Proof.
  intros columns attr r H. unfold column_of, format_columns in H.
  destruct columns as [|c t]; [left; auto|]. right. cbv zeta in H.
  destruct (negb _) in H.
  - exists lower. split; [auto|]. cbn [bind] in H. eexists. split; [symmetry; exact H|].
    intro i. rewrite dict_get_spec, Nat.sub_0_r, last_named_map. split; [tauto|].
    intro Hx; split; [lia|exact Hx].
  - exists (fun n => n). split; [auto|]. cbn [bind] in H. eexists. split; [symmetry; exact H|].
    intro i. rewrite dict_get_spec, Nat.sub_0_r, last_named_map, map_id. split; [tauto|].
    intro Hx; split; [lia|exact Hx].
Qed.

(** They are put in lower case if there are fewer than 1.01 capitals per column. *)
Theorem C57_columns_when : forall columns, columns <> [] ->
  exists f, format_columns columns = Ok f
  /\ (100 * fold_right plus 0 (map count_capitals columns) < 101 * length columns -> Forall2 (Forall2 lowered) columns f)
  /\ (101 * length columns <= 100 * fold_right plus 0 (map count_capitals columns) -> f = columns).
Proof.
  intros columns N. unfold format_columns. destruct columns as [|c t]; [congruence|]. cbv zeta.
  set (l := c :: t) in *.
  assert (S : sum_nat (map num_capitals l) = fold_right plus 0 (map count_capitals l)).
  { unfold sum_nat. f_equal. apply map_ext. exact capitals_iff. }
  rewrite S. set (k := fold_right plus 0 (map count_capitals l)).
  assert (L : 0 < length l) by (subst l; cbn [length]; lia).
  assert (Q : Qle_bool (101 # 100) (inject_Z (Z.of_nat k) / inject_Z (Z.of_nat (length l))) = true <-> 101 * length l <= 100 * k).
  { rewrite Qle_bool_iff. transitivity ((101 # 100) * inject_Z (Z.of_nat (length l)) <= inject_Z (Z.of_nat k))%Q.
    - assert (P : (0 < inject_Z (Z.of_nat (length l)))%Q) by (change 0%Q with (inject_Z 0); rewrite <- Zlt_Qlt; lia).
      split; intro H.
      + apply (Qmult_le_compat_r _ _ (inject_Z (Z.of_nat (length l)))) in H; [|apply Qlt_le_weak; exact P].
        rewrite (Qmult_comm (_ / _)), Qmult_div_r in H; [exact H|]. intro Z. rewrite Z in P. discriminate P.
      + apply Qle_shift_div_l; assumption.
    - unfold Qle. cbn [Qnum Qden Qmult inject_Z]. rewrite Pos.mul_1_r, Z.mul_1_r. lia. }
  destruct (Qle_bool _ _) eqn:E; cbn [negb].
  - exists l. split; [reflexivity|]. split; [|reflexivity]. intro H. apply proj1 in Q. specialize (Q eq_refl). lia.
  - exists (map lower l). split; [reflexivity|]. split.
    + intros _. apply (Forall2_map_l lower _ l _ lower_iff). reflexivity.
    + intro H. apply Q in H. discriminate.
Qed.

(** Elements are put in lower case, ions keep their names. *)
Example C57_columns_example :
  column_of [txt "Hydrogen"; txt "Helium"] (txt "helium") = Ok (Some 1)
  /\ column_of [txt "HI"; txt "HII"; txt "HeII"] (txt "HeII") = Ok (Some 2)
  /\ column_of [txt "HI"; txt "HII"; txt "HeII"] (txt "heii") = Ok None.
Proof. repeat split; reflexivity. Qed.

(** One acronym among the elements changes the names of all other columns. *)
Theorem C57_columns_refuted :
  column_of [txt "Hydrogen"; txt "Helium"] (txt "hydrogen") = Ok (Some 0)
  /\ column_of [txt "Hydrogen"; txt "Helium"; txt "AGBMass"] (txt "hydrogen") = Ok None.
Proof. split; reflexivity. Qed.

Theorem C57_collision_refuted :
  field_of [txt "XRayLuminosities"; txt "XrayLuminosities"] (txt "xray_luminosities") = Some 1
  /\ forall attr, field_of [txt "XRayLuminosities"; txt "XrayLuminosities"] attr <> Some 0.
Proof.
  split; [reflexivity|]. apply (C57_unreachable_iff _ 0 (txt "XRayLuminosities")); [reflexivity|].
  exists 1, (txt "XrayLuminosities"). repeat split; auto.
Qed.

(** C58.  SOAP groups [Kind/variant] whose variants are in lower case without further
    slashes get different names; unknown kinds are refused. *)
Definition soap_kinds : list name := map fst soap_underscores.

Theorem C58_soap_injective : forall k1 k2 v1 v2 n,
  In k1 soap_kinds -> In k2 soap_kinds ->
  no_upper v1 -> no_upper v2 -> ~ In slash v1 -> ~ In slash v2 ->
  soap_name_underscore (k1 ++ slash :: v1) = Ok n ->
  soap_name_underscore (k2 ++ slash :: v2) = Ok n ->
  k1 = k2 /\ v1 = v2.
Proof.
  intros k1 k2 v1 v2 n H1 H2 L1 L2 S1 S2 E1 E2.
  assert (K : forall k, In k soap_kinds -> ~ In slash k).
  { intros k Hk. cbn in Hk. intro I. repeat destruct Hk as [<-|Hk]; try contradiction;
      vm_compute in I; repeat destruct I as [I|I]; try discriminate I; contradiction. }
  unfold soap_name_underscore in E1, E2.
  rewrite (split_app _ _ (K _ H1)), (split_plain _ S1) in E1.
  rewrite (split_app _ _ (K _ H2)), (split_plain _ S2) in E2.
  cbn [map] in E1, E2. rewrite (lower_same v1 L1) in E1. rewrite (lower_same v2 L2) in E2.
  cbn in H1, H2. clear K.
  repeat destruct H1 as [<-|H1]; try contradiction; repeat destruct H2 as [<-|H2]; try contradiction;
    cbn in E1, E2; inversion E1; subst n; inversion E2; auto.
Qed.

(** The names in full: the kind from the table, then the other parts in small letters, with underscores
    in between; for people, all parts capitalised. *)
Theorem C58_names : forall g n,
  soap_name_underscore g = Ok n
  <-> exists k ws u p u' ws', parts g (k :: ws) /\ soap_kind k u p
      /\ Forall2 lowered u u' /\ Forall2 (Forall2 lowered) ws ws' /\ glued (txt "_") (u' :: ws') n.
Proof.
  intros g n. unfold soap_name_underscore. split.
  - intro H. destruct (split g) as [|k ws] eqn:E; [discriminate|]. apply parts_iff in E.
    destruct (dict_get soap_underscores k) as [u|] eqn:D; [|discriminate]. apply kind_iff in D. destruct D as (p & D).
    injection H as H. exists k, ws, u, p, (lower u), (map lower ws).
    split; [exact E|]. split; [exact D|]. split; [apply lower_iff; reflexivity|].
    split; [apply (Forall2_map_l lower _ ws _ lower_iff); reflexivity|]. apply glued_iff; [discriminate|exact H].
  - intros (k & ws & u & p & u' & ws' & E & D & U & W & G). apply parts_iff in E. rewrite E.
    assert (D' : dict_get soap_underscores k = Some u) by (apply kind_iff; exists p; exact D). rewrite D'. cbn [map].
    apply lower_iff in U. apply (Forall2_map_l lower _ ws _ lower_iff) in W. rewrite U, W. apply glued_iff in G; [|discriminate].
    f_equal. exact G.
Qed.

Theorem C58_nice_names : forall g n,
  soap_name_nice g = Ok n
  <-> exists k ws u p p' ws', parts g (k :: ws) /\ soap_kind k u p
      /\ capitalised p p' /\ Forall2 capitalised ws ws' /\ glued [] (p' :: ws') n.
Proof.
  intros g n. unfold soap_name_nice. split.
  - intro H. destruct (split g) as [|k ws] eqn:E; [discriminate|]. apply parts_iff in E.
    destruct (dict_get soap_nice k) as [p|] eqn:D; [|discriminate]. apply kind_nice_iff in D. destruct D as (u & D).
    injection H as H. exists k, ws, u, p, (capitalize p), (map capitalize ws).
    split; [exact E|]. split; [exact D|]. split; [apply capitalise_iff; reflexivity|].
    split; [apply (Forall2_map_l capitalize _ ws _ capitalise_iff); reflexivity|]. apply glued_iff; [discriminate|exact H].
  - intros (k & ws & u & p & u' & ws' & E & D & U & W & G). apply parts_iff in E. rewrite E.
    assert (D' : dict_get soap_nice k = Some p) by (apply kind_nice_iff; exists u; exact D). rewrite D'. cbn [map].
    apply capitalise_iff in U. apply (Forall2_map_l capitalize _ ws _ capitalise_iff) in W. rewrite U, W. apply glued_iff in G; [|discriminate].
    f_equal. exact G.
Qed.

(** Anything else is refused. *)
Theorem C58_refused : forall g k ws, parts g (k :: ws) -> (forall u p, ~ soap_kind k u p) ->
  soap_name_underscore g = Err KeyError /\ soap_name_nice g = Err KeyError.
Proof.
  intros g k ws E N. apply parts_iff in E. unfold soap_name_underscore, soap_name_nice. rewrite E. split.
  - destruct (dict_get soap_underscores k) as [u|] eqn:D; [|reflexivity]. apply kind_iff in D. destruct D as (p & D). exfalso. exact (N u p D).
  - destruct (dict_get soap_nice k) as [p|] eqn:D; [|reflexivity]. apply kind_nice_iff in D. destruct D as (u & D). exfalso. exact (N u p D).
Qed.

Theorem C58_unknown_kind : forall g, ~ In (hd [] (split g)) soap_kinds ->
  soap_name_underscore g = Err KeyError.
Proof.
  intros g H. unfold soap_name_underscore.
  destruct (split g) as [|w ws] eqn:E; [exfalso; exact (split_nonempty g E)|]. cbn [hd] in H.
  destruct (dict_get soap_underscores w) as [v|] eqn:Ed; [|reflexivity]. exfalso. apply H.
  eapply dict_get_key. exact Ed.
Qed.

Example C58_example :
  soap_name_underscore (txt "SO/200_crit") = Ok (txt "spherical_overdensity_200_crit")
  /\ soap_name_underscore (txt "BoundSubhalo") = Ok (txt "bound_subhalo")
  /\ soap_name_underscore (txt "FOF") = Err KeyError.
Proof. repeat split; reflexivity. Qed.

(** Deeper paths can collide; and the "nice" name loses its inner capitals. *)
Theorem C58_deeper_paths_refuted :
  soap_name_underscore (txt "ProjectedAperture/50kpc/projx")
  = soap_name_underscore (txt "ProjectedAperture/50kpc_projx").
Proof. reflexivity. Qed.

Theorem C58_nice_name_refuted : soap_name_nice (txt "BoundSubhalo") = Ok (txt "Boundsubhalo")
  /\ soap_name_nice (txt "SO/200_crit") = Ok (txt "Sphericaloverdensity200_crit").
Proof. split; reflexivity. Qed.

Print Assumptions C34_snake_case.
Print Assumptions C34_alphabet.
Print Assumptions C34_no_upper.
Print Assumptions C34_unchanged_iff.
Print Assumptions C34_idempotent.
Print Assumptions C34_letters_kept.
Print Assumptions C34_camel_injective.
Print Assumptions C34_collision_refuted.
Print Assumptions C57_last_field_wins.
Print Assumptions C57_every_attribute_has_a_field.
Print Assumptions C57_unreachable_iff.
Print Assumptions C57_camel_all_reachable.
Print Assumptions C57_columns.
Print Assumptions C57_columns_when.
Print Assumptions C57_columns_refuted.
Print Assumptions C57_collision_refuted.
Print Assumptions C58_soap_injective.
Print Assumptions C58_names.
Print Assumptions C58_nice_names.
Print Assumptions C58_refused.
Print Assumptions C58_unknown_kind.
Print Assumptions C58_deeper_paths_refuted.
Print Assumptions C58_nice_name_refuted.

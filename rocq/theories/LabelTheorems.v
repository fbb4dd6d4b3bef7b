(** Property C106: what the attributes of a dataset make of its array. *)
From Coq Require Import String List ZArith QArith Qreals Reals Lia Bool Ascii Lra.
From Verif Require Import Base BaseLemmas NamesModel NamesProofs MetaModel MetaSpec MetaGroupProofs CosmoModel CosmoSpec CtorModel CtorSpec
     CtorTheorems WriterModel WriterProofs LabelModel LabelSpec.
Import ListNotations.
Open Scope list_scope.

Lemma find_has : forall at_ k v, unique at_ -> (LabelSpec.has at_ k v <-> find_attr k at_ = Some v).
Proof.
  intros at_ k v. induction at_ as [|(n, w) at_ IH]; intros U; [split; [intros []|discriminate]|].
  inversion U as [|? ? Hn U']; subst. cbn [find_attr]. destruct (name_eqb n k) eqn:E.
  - apply name_eqb_iff in E. subst n. split.
    + intros [H|H]; [congruence|]. exfalso. apply Hn. apply in_map_iff. exists (k, v). auto.
    + intros H. injection H as ->. now left.
  - split.
    + intros [H|H]; [injection H as -> ->; rewrite (proj2 (name_eqb_iff k k) eq_refl) in E; discriminate|].
      apply IH; auto.
    + intros H. right. apply IH; auto.
Qed.

Lemma find_lacks : forall at_ k, lacks at_ k <-> find_attr k at_ = None.
Proof.
  intros at_ k. induction at_ as [|(n, w) at_ IH]; [split; [reflexivity|intros _ v []]|].
  cbn [find_attr]. destruct (name_eqb n k) eqn:E.
  - apply name_eqb_iff in E. subst n. split; [intros H; destruct (H w); now left|discriminate].
  - rewrite <- IH. split.
    + intros H v Hv. apply (H v). now right.
    + intros H v [Hv|Hv]; [|apply (H v Hv)]. injection Hv as -> ->. rewrite (proj2 (name_eqb_iff k k) eq_refl) in E. discriminate.
Qed.

Lemma decode_text : forall v t, reads_as v t -> decode v = Ok (AText t).
Proof. intros v t []; reflexivity. Qed.

Lemma truthy_flag : forall v x, flag v x -> truthy v = Ok (negb (Qeq_bool x 0)).
Proof. intros v x []; reflexivity. Qed.

Lemma truth_on : forall at_ k d, unique at_ -> on at_ k ->
  match find_attr k at_ with Some v => truthy v | None => Ok d end = Ok true.
Proof.
  intros at_ k d U (v & x & Hv & Hf & Hx). apply find_has in Hv; [|assumption]. rewrite Hv, (truthy_flag v x Hf).
  destruct (Qeq_bool x 0) eqn:E; [|reflexivity]. now apply Qeq_bool_iff in E.
Qed.

Lemma truth_off : forall at_ k d, unique at_ -> off at_ k ->
  match find_attr k at_ with Some v => truthy v | None => Ok d end = Ok false.
Proof.
  intros at_ k d U (v & x & Hv & Hf & Hx). apply find_has in Hv; [|assumption]. rewrite Hv, (truthy_flag v x Hf).
  apply Qeq_bool_iff in Hx. now rewrite Hx.
Qed.

Lemma truth_default : forall at_ k d, lacks at_ k ->
  match find_attr k at_ with Some v => truthy v | None => Ok d end = Ok d.
Proof. intros at_ k d H. apply find_lacks in H. now rewrite H. Qed.

Lemma join_plus : forall l s, plus l s -> join (txt " + ") l = s.
Proof.
  induction 1 as [t|t l s H IH]; [reflexivity|]. cbn [join]. rewrite IH. destruct l; [inversion H|reflexivity].
Qed.

(** The description that is shown with an array. *)
Theorem C106_description : forall (show : aval -> name) (at_ : attributes) (t m : name),
  unique at_ -> described at_ t -> restricted show at_ m -> load_description show at_ = Ok (t ++ txt " " ++ m).
Proof.
  intros show at_ t m U D M. unfold load_description.
  assert (E : decode (match find_attr (txt "Description") at_ with
                      | Some v => v | None => AText (txt "No description available.") end) = Ok (AText t)).
  { destruct D as [v t Hv Ht|H].
    - apply find_has in Hv; [|assumption]. rewrite Hv. now apply decode_text.
    - apply find_lacks in H. now rewrite H. }
  rewrite E. cbn [bind]. destruct M as [[H|H]|l s v H Hl Hs Hv Hn].
  - rewrite truth_default by assumption. reflexivity.
  - rewrite truth_off by assumption. reflexivity.
  - rewrite truth_on by assumption. cbn [bind]. unfold need.
    apply find_has in Hl; [|assumption]. apply find_has in Hv; [|assumption]. rewrite Hl, Hv. cbn [bind joined].
    rewrite (join_plus l s Hs). destruct v; try reflexivity. now destruct (Hn t0).
Qed.

(** The text about compression. *)
Theorem C106_compression : forall (at_ : attributes) (t : name),
  unique at_ -> compressed at_ t -> load_compression at_ = Ok (AText t).
Proof.
  intros at_ t U C. unfold load_compression. destruct C as [H|v t [H|H] Hv Ht|[H|H] Hv].
  - rewrite truth_off by assumption. reflexivity.
  - rewrite truth_default by assumption. cbn [bind negb]. apply find_has in Hv; [|assumption]. rewrite Hv. now apply decode_text.
  - rewrite truth_on by assumption. cbn [bind negb]. apply find_has in Hv; [|assumption]. rewrite Hv. now apply decode_text.
  - rewrite truth_default by assumption. cbn [bind negb]. apply find_lacks in Hv. now rewrite Hv.
  - rewrite truth_on by assumption. cbn [bind negb]. apply find_lacks in Hv. now rewrite Hv.
Qed.

Lemma exponent_found : forall at_ k x, unique at_ -> first_number at_ k x -> exponent_of k at_ = Ok x.
Proof. intros at_ k x U (l & H). unfold exponent_of, need. apply find_has in H; [|assumption]. now rewrite H. Qed.

Lemma number_found : forall at_ k d x, unique at_ -> number_or at_ k d x ->
  item0 (match find_attr k at_ with Some v => v | None => ANums [d] end) = Ok (Some x).
Proof.
  intros at_ k d x U [(l & H)|(H & ->)].
  - apply find_has in H; [|assumption]. now rewrite H.
  - apply find_lacks in H. now rewrite H.
Qed.

(** The unit of an array: the product of the powers of the units of the file. *)
Theorem C106_units : forall (at_ : attributes) (u : usys) (e : exponents),
  unique at_ -> has_exponents at_ e ->
  exists r, load_field_units at_ u = Ok (r, mkdims (e_M e) (e_L e) (e_t e) (e_T e) (e_I e) 0) /\ r = size_in u e.
Proof.
  intros at_ u [i l m T t] U H. unfold has_exponents, unit_keys in H. cbn [e_I e_L e_M e_T e_t] in *.
  inversion H as [|? ? ? ? Hi H1]; subst. inversion H1 as [|? ? ? ? Hl H2]; subst. inversion H2 as [|? ? ? ? Hm H3]; subst.
  inversion H3 as [|? ? ? ? HT H4]; subst. inversion H4 as [|? ? ? ? Ht _]; subst.
  unfold load_field_units.
  rewrite (exponent_found at_ (txt "U_I exponent") i U Hi), (exponent_found at_ (txt "U_L exponent") l U Hl),
    (exponent_found at_ (txt "U_M exponent") m U Hm), (exponent_found at_ (txt "U_T exponent") T U HT),
    (exponent_found at_ (txt "U_t exponent") t U Ht). cbn [bind]. unfold load_units. cbn [at_I at_L at_M at_T at_t].
  eexists. split; [reflexivity|]. unfold size_in. cbn [e_I e_L e_M e_T e_t].
  assert (P : forall x q, (if Qeq_bool q 0 then 1 else upow x q)%R = Rpower x (Q2R q)).
  { intros x q. destruct (Qeq_bool q 0) eqn:E; [|reflexivity]. apply Qeq_bool_iff in E. symmetry. now apply upow_zero. }
  rewrite !P. ring.
Qed.

(** The array of a field: its numbers, the unit, the power of the scale factor, the frame, whether it may be
    converted, the label and the text about compression are those of the attributes. *)
Theorem C106_made :
  forall (show : aval -> name) (u : usys) (a : R) (masked : bool) (column : option nat) (public : name)
         (at_ : attributes) (numbers : list R) (e : exponents) (k phys conv : Q) (t m c : name),
  unique at_ -> has_exponents at_ e -> number_or at_ (txt "a-scale exponent") 0 k ->
  number_or at_ (txt "Value stored as physical") 0 phys ->
  number_or at_ (txt "Property can be converted to comoving") 1 conv ->
  described at_ t -> restricted show at_ m -> compressed at_ c ->
  ((phys == 1)%Q \/ (conv == 1)%Q) ->
  exists x, getter show u a masked column public (Some at_) (Ok numbers) = Ok (Some x) /\
    avals (u_arr (m_array x)) = numbers /\
    u_unit (m_array x) = (size_in u e, mkdims (e_M e) (e_L e) (e_t e) (e_T e) (e_I e) 0) /\
    acf (u_arr (m_array x)) = Some (mkcf (Some (Q2R k)) (Some a)) /\
    (exists comoving, acm (u_arr (m_array x)) = Some comoving /\ (comoving = false <-> (phys == 1)%Q)) /\
    (avt (u_arr (m_array x)) = true <-> (conv == 1)%Q) /\
    m_compression x = AText c /\ acomp (u_arr (m_array x)) = CStr (string_of_list_ascii c) /\
    label (t ++ txt " " ++ m) public masked column (m_name x).
Proof.
  intros show u a masked column public at_ numbers e k phys conv t m c U He Hk Hp Hv Ht Hm Hc Hok.
  destruct (C106_units at_ u e U He) as (r & Er & ->).
  unfold getter, build. rewrite Er. cbn [bind]. unfold load_cosmo_factor. rewrite (number_found _ _ _ _ U Hk). cbn [bind].
  rewrite (C106_description show at_ t m U Ht Hm), (C106_compression at_ c U Hc). cbn [bind].
  unfold load_physical, load_valid_transform, LabelModel.is_one. rewrite (number_found _ _ _ _ U Hp), (number_found _ _ _ _ U Hv). cbn [bind].
  set (kw := mkkw _ _ _ _ _ _ _ _).
  assert (N : exists x, new_array no_unit (fun _ _ => no_unit) (InNumbers numbers) kw = Ok x /\
     x = mku (size_in u e, mkdims (e_M e) (e_L e) (e_t e) (e_T e) (e_I e) 0)
             (mkarr numbers (Some (mkcf (Some (Q2R k)) (Some a))) (Some (negb (Qeq_bool phys 1))) (Qeq_bool conv 1)
                    (CStr (string_of_list_ascii c)))).
  { eexists. split; [|reflexivity]. apply C86_numbers; [reflexivity|].
    exists (Some (mkcf (Some (Q2R k)) (Some a))). split; [unfold kw; cbn; unfold cf_create; constructor|].
    split; [|reflexivity]. unfold kw. cbn [k_cm k_vt]. intros (H1 & H2).
    destruct Hok as [H|H]; apply Qeq_bool_iff in H; [rewrite H in H1; discriminate|congruence]. }
  destruct N as (x & -> & ->). cbn [bind]. eexists. split; [reflexivity|]. cbn [m_array m_name m_compression u_arr u_unit avals acf acm avt acomp].
  repeat split.
  - exists (negb (Qeq_bool phys 1)). split; [reflexivity|]. rewrite negb_false_iff. apply Qeq_bool_iff.
  - apply Qeq_bool_iff.
  - apply Qeq_bool_iff.
  - destruct masked; constructor. destruct column as [j|]; constructor. apply decimal_numeral.
Qed.

(** Without a unit exponent the getter prints a message and gives [None], whatever the other attributes. *)
Theorem C106_no_units :
  forall (show : aval -> name) (u : usys) (a : R) (masked : bool) (column : option nat) (public : name)
         (at_ : attributes) (numbers : res (list R)),
  unique at_ -> Forall (fun k => lacks at_ k \/ exists x, first_number at_ k x) unit_keys ->
  Exists (lacks at_) unit_keys ->
  getter show u a masked column public (Some at_) numbers = Ok None.
Proof.
  intros show u a masked column public at_ numbers U F X. unfold getter, build.
  assert (E : load_field_units at_ u = Err KeyError).
  { unfold load_field_units, unit_keys in *.
    assert (K : forall k, lacks at_ k -> exponent_of k at_ = Err KeyError).
    { intros k H. unfold exponent_of, need. apply find_lacks in H. now rewrite H. }
    assert (D : forall k, lacks at_ k \/ (exists x, first_number at_ k x) ->
                exponent_of k at_ = Err KeyError \/ exists x, exponent_of k at_ = Ok x /\ ~ lacks at_ k).
    { intros k [H|(x & H)]; [left; auto|right]. exists x. split; [now apply exponent_found|].
      destruct H as (l & H). intros L. now apply (L (ANums (x :: l))). }
    rewrite Forall_forall in F. rewrite Exists_exists in X. destruct X as (k & Hk & Lk).
    destruct (D _ (F (txt "U_I exponent") (or_introl eq_refl))) as [E|(x1 & E & N1)]; rewrite E; [reflexivity|].
    destruct (D _ (F (txt "U_L exponent") (or_intror (or_introl eq_refl)))) as [E2|(x2 & E2 & N2)]; rewrite E2; [reflexivity|].
    destruct (D _ (F (txt "U_M exponent") (or_intror (or_intror (or_introl eq_refl))))) as [E3|(x3 & E3 & N3)]; rewrite E3; [reflexivity|].
    destruct (D _ (F (txt "U_T exponent") (or_intror (or_intror (or_intror (or_introl eq_refl)))))) as [E4|(x4 & E4 & N4)]; rewrite E4; [reflexivity|].
    destruct (D _ (F (txt "U_t exponent") (or_intror (or_intror (or_intror (or_intror (or_introl eq_refl))))))) as [E5|(x5 & E5 & N5)]; rewrite E5; [reflexivity|].
    exfalso. destruct Hk as [<-|[<-|[<-|[<-|[<-|[]]]]]]; contradiction. }
  now rewrite E.
Qed.

(** The same for a dataset that is not there, and for the field of a catalogue that says it is masked but not
    by what. *)
Theorem C106_no_dataset :
  forall (show : aval -> name) (u : usys) (a : R) (masked : bool) (column : option nat) (public : name) (numbers : res (list R)),
  getter show u a masked column public None numbers = Ok None.
Proof. reflexivity. Qed.

Theorem C106_no_mask_dataset :
  forall (show : aval -> name) (u : usys) (a : R) (masked : bool) (column : option nat) (public : name)
         (at_ : attributes) (numbers : res (list R)) (e : exponents) (k : Q) (t : name),
  unique at_ -> has_exponents at_ e -> number_or at_ (txt "a-scale exponent") 0 k -> described at_ t ->
  on at_ (txt "Masked") ->
  (lacks at_ (txt "Mask Datasets") \/ (exists l, LabelSpec.has at_ (txt "Mask Datasets") (ATexts l)) /\ lacks at_ (txt "Mask Threshold")) ->
  getter show u a masked column public (Some at_) numbers = Ok None.
Proof.
  intros show u a masked column public at_ numbers e k t U He Hk Ht Hm Hl. unfold getter, build.
  destruct (C106_units at_ u e U He) as (r & -> & _). cbn [bind].
  unfold load_cosmo_factor. rewrite (number_found _ _ _ _ U Hk). cbn [bind].
  unfold load_description.
  assert (E : decode (match find_attr (txt "Description") at_ with
                      | Some v => v | None => AText (txt "No description available.") end) = Ok (AText t)).
  { destruct Ht as [v t Hv Ht|H].
    - apply find_has in Hv; [|assumption]. rewrite Hv. now apply decode_text.
    - apply find_lacks in H. now rewrite H. }
  rewrite E. cbn [bind]. rewrite truth_on by assumption. cbn [bind]. unfold need. destruct Hl as [H|((l & Hl) & H)].
  - apply find_lacks in H. now rewrite H.
  - apply find_lacks in H. apply find_has in Hl; [|assumption]. now rewrite Hl, H.
Qed.

(** Names of the datasets that are stored as bytes, as descriptions may be, make the field unreadable. *)
Theorem C106_bytes_refuted :
  forall (show : aval -> name) (u : usys) (a : R) (masked : bool) (column : option nat) (public : name)
         (at_ : attributes) (numbers : res (list R)) (e : exponents) (k : Q) (t : name) (n : name) (l : list name),
  unique at_ -> has_exponents at_ e -> number_or at_ (txt "a-scale exponent") 0 k -> described at_ t ->
  on at_ (txt "Masked") -> LabelSpec.has at_ (txt "Mask Datasets") (ABytesArray (n :: l)) ->
  getter show u a masked column public (Some at_) numbers = Err TypeError.
Proof.
  intros show u a masked column public at_ numbers e k t n l U He Hk Ht Hm Hl. unfold getter, build.
  destruct (C106_units at_ u e U He) as (r & -> & _). cbn [bind].
  unfold load_cosmo_factor. rewrite (number_found _ _ _ _ U Hk). cbn [bind].
  unfold load_description.
  assert (E : decode (match find_attr (txt "Description") at_ with
                      | Some v => v | None => AText (txt "No description available.") end) = Ok (AText t)).
  { destruct Ht as [v t Hv Ht|H].
    - apply find_has in Hv; [|assumption]. rewrite Hv. now apply decode_text.
    - apply find_lacks in H. now rewrite H. }
  rewrite E. cbn [bind]. rewrite truth_on by assumption. cbn [bind]. unfold need.
  apply find_has in Hl; [|assumption]. now rewrite Hl.
Qed.

(** A field that is stored comoving and may not be converted cannot be loaded: this exception reaches the
    user. *)
Theorem C106_locked_comoving :
  forall (show : aval -> name) (u : usys) (a : R) (masked : bool) (column : option nat) (public : name)
         (at_ : attributes) (numbers : list R) (e : exponents) (k phys conv : Q) (t m c : name),
  unique at_ -> has_exponents at_ e -> number_or at_ (txt "a-scale exponent") 0 k ->
  number_or at_ (txt "Value stored as physical") 0 phys ->
  number_or at_ (txt "Property can be converted to comoving") 1 conv ->
  described at_ t -> restricted show at_ m -> compressed at_ c ->
  ~ (phys == 1)%Q -> ~ (conv == 1)%Q ->
  getter show u a masked column public (Some at_) (Ok numbers) = Err InvalidConversion.
Proof.
  intros show u a masked column public at_ numbers e k phys conv t m c U He Hk Hp Hv Ht Hm Hc H1 H2.
  destruct (C106_units at_ u e U He) as (r & Er & ->).
  unfold getter, build. rewrite Er. cbn [bind]. unfold load_cosmo_factor. rewrite (number_found _ _ _ _ U Hk). cbn [bind].
  rewrite (C106_description show at_ t m U Ht Hm), (C106_compression at_ c U Hc). cbn [bind].
  unfold load_physical, load_valid_transform, LabelModel.is_one. rewrite (number_found _ _ _ _ U Hp), (number_found _ _ _ _ U Hv). cbn [bind].
  destruct (Qeq_bool phys 1) eqn:E1; [apply Qeq_bool_iff in E1; contradiction|].
  destruct (Qeq_bool conv 1) eqn:E2; [apply Qeq_bool_iff in E2; contradiction|]. reflexivity.
Qed.

(** Errors while reading reach the user, except KeyErrors. *)
Theorem C106_read_error :
  forall (show : aval -> name) (u : usys) (a : R) (masked : bool) (column : option nat) (public : name)
         (at_ : attributes) (err : pyerr) (e : exponents) (k phys conv : Q) (t m c : name),
  unique at_ -> has_exponents at_ e -> number_or at_ (txt "a-scale exponent") 0 k ->
  number_or at_ (txt "Value stored as physical") 0 phys ->
  number_or at_ (txt "Property can be converted to comoving") 1 conv ->
  described at_ t -> restricted show at_ m -> compressed at_ c ->
  getter show u a masked column public (Some at_) (Err err) =
    (if match err with KeyError => true | _ => false end then Ok None else Err err).
Proof.
  intros show u a masked column public at_ err e k phys conv t m c U He Hk Hp Hv Ht Hm Hc.
  destruct (C106_units at_ u e U He) as (r & Er & ->).
  unfold getter, build. rewrite Er. cbn [bind]. unfold load_cosmo_factor. rewrite (number_found _ _ _ _ U Hk). cbn [bind].
  rewrite (C106_description show at_ t m U Ht Hm), (C106_compression at_ c U Hc). cbn [bind].
  unfold load_physical, load_valid_transform, LabelModel.is_one. rewrite (number_found _ _ _ _ U Hp), (number_found _ _ _ _ U Hv). cbn [bind].
  now destruct err.
Qed.

(** A field loaded with a mask and the same field loaded without differ in their label, always. *)
Theorem C106_labels_differ_refuted :
  forall (show : aval -> name) (u : usys) (a : R) (column : option nat) (public : name) (at_ : option attributes)
         (v w : res (list R)) (x y : made),
  getter show u a true column public at_ v = Ok (Some x) -> getter show u a false column public at_ w = Ok (Some y) ->
  m_name x <> m_name y /\ u_unit (m_array x) = u_unit (m_array y) /\ acf (u_arr (m_array x)) = acf (u_arr (m_array y)) /\
  acm (u_arr (m_array x)) = acm (u_arr (m_array y)) /\ avt (u_arr (m_array x)) = avt (u_arr (m_array y)) /\
  m_compression x = m_compression y.
Proof.
  intros show u a column public at_ v w x y Hx Hy. unfold getter, build in *.
  destruct at_ as [at_|]; [|discriminate].
  destruct (load_field_units at_ u) as [un|e]; cbn [bind] in *; [|destruct e; discriminate].
  destruct (load_cosmo_factor at_ a) as [c|e]; cbn [bind] in *; [|destruct e; discriminate].
  destruct (load_description show at_) as [d|e]; cbn [bind] in *; [|destruct e; discriminate].
  destruct (load_compression at_) as [co|e]; cbn [bind] in *; [|destruct e; discriminate].
  destruct (load_physical at_) as [ph|e]; cbn [bind] in *; [|destruct e; discriminate].
  destruct (load_valid_transform at_) as [vt|e]; cbn [bind] in *; [|destruct e; discriminate].
  destruct v as [v|e]; cbn [bind] in *; [|destruct e; discriminate].
  destruct w as [w|e]; cbn [bind] in *; [|destruct e; discriminate].
  destruct (new_array _ _ (InNumbers v) _) as [p|e] eqn:E1; cbn [bind] in *; [|destruct e; discriminate].
  destruct (new_array _ _ (InNumbers w) _) as [q|e] eqn:E2; cbn [bind] in *; [|destruct e; discriminate].
  injection Hx as <-. injection Hy as <-. cbn [m_name m_array m_compression].
  apply C86_numbers in E1; [|reflexivity]. apply C86_numbers in E2; [|reflexivity].
  destruct E1 as (c1 & A1 & _ & ->). destruct E2 as (c2 & A2 & _ & ->).
  cbn [k_cf k_sf k_se] in A1, A2. inversion A1; subst. inversion A2; subst.
  cbn. repeat split. intros H. apply (f_equal (@length ascii)) in H. rewrite !app_length in H. cbn in H. lia.
Qed.

(** Attributes that hold no numbers where numbers are needed. *)
Theorem C106_not_numbers :
  forall (show : aval -> name) (u : usys) (a : R) (masked : bool) (column : option nat) (public : name)
         (at_ : attributes) (numbers : res (list R)) (v : aval),
  unique at_ -> LabelSpec.has at_ (txt "U_I exponent") v ->
  (no_items v -> getter show u a masked column public (Some at_) numbers = Err IndexError)
  /\ (text_items v -> getter show u a masked column public (Some at_) numbers = Err TypeError).
Proof.
  intros show u a masked column public at_ numbers v U H. apply find_has in H; [|assumption].
  unfold getter, build, load_field_units, exponent_of, need. rewrite H. cbn [bind].
  split; intros []; reflexivity.
Qed.

Theorem C106_not_number_scale :
  forall (show : aval -> name) (u : usys) (a : R) (masked : bool) (column : option nat) (public : name)
         (at_ : attributes) (numbers : res (list R)) (e : exponents) (v : aval),
  unique at_ -> has_exponents at_ e -> LabelSpec.has at_ (txt "a-scale exponent") v ->
  (no_items v -> getter show u a masked column public (Some at_) numbers = Err IndexError)
  /\ (text_items v -> getter show u a masked column public (Some at_) numbers = Err TypeError).
Proof.
  intros show u a masked column public at_ numbers e v U He H. apply find_has in H; [|assumption].
  destruct (C106_units at_ u e U He) as (r & Er & _).
  unfold getter, build. rewrite Er. cbn [bind]. unfold load_cosmo_factor. rewrite H. split; intros []; reflexivity.
Qed.

(** A text where a flag is needed is a flag that is not set. *)
Theorem C106_text_flags : forall (at_ : attributes) (v : aval), unique at_ -> text_items v ->
  (LabelSpec.has at_ (txt "Value stored as physical") v -> load_physical at_ = Ok false)
  /\ (LabelSpec.has at_ (txt "Property can be converted to comoving") v -> load_valid_transform at_ = Ok false).
Proof.
  intros at_ v U T. unfold load_physical, load_valid_transform, LabelModel.is_one.
  split; intros H; apply find_has in H; try assumption; rewrite H; destruct T; reflexivity.
Qed.

(** The first item of bytes is a number, its code. *)
Theorem C106_byte_codes : forall (at_ : attributes) (k : name) (c : ascii) (t : name),
  unique at_ -> LabelSpec.has at_ k (ABytes (Some (c :: t))) ->
  exponent_of k at_ = Ok (inject_Z (Z.of_nat (nat_of_ascii c))).
Proof. intros at_ k c t U H. apply find_has in H; [|assumption]. unfold exponent_of, need. now rewrite H. Qed.

(** Bytes that are no UTF-8. *)
Theorem C106_not_utf8 :
  forall (show : aval -> name) (u : usys) (a : R) (masked : bool) (column : option nat) (public : name)
         (at_ : attributes) (numbers : res (list R)) (e : exponents) (k : Q),
  unique at_ -> has_exponents at_ e -> number_or at_ (txt "a-scale exponent") 0 k ->
  LabelSpec.has at_ (txt "Description") (ABytes None) ->
  getter show u a masked column public (Some at_) numbers = Err ValueError.
Proof.
  intros show u a masked column public at_ numbers e k U He Hk H. apply find_has in H; [|assumption].
  destruct (C106_units at_ u e U He) as (r & Er & _).
  unfold getter, build. rewrite Er. cbn [bind]. unfold load_cosmo_factor. rewrite (number_found _ _ _ _ U Hk). cbn [bind].
  unfold load_description. rewrite H. reflexivity.
Qed.

(** One dataset given as a text, not as an array of texts: its letters are joined. *)
Theorem C106_letters_refuted :
  forall (show : aval -> name) (at_ : attributes) (t s letters : name) (v : aval),
  unique at_ -> described at_ t -> on at_ (txt "Masked") ->
  LabelSpec.has at_ (txt "Mask Datasets") (AText s) -> plus (map (fun c => [c]) s) letters ->
  LabelSpec.has at_ (txt "Mask Threshold") v -> (forall x, v <> AText x) ->
  load_description show at_ = Ok (t ++ txt " " ++ txt "Only computed for objects where " ++ letters ++ txt " >= " ++ show v ++ txt ".")
  /\ ((2 <= length s)%nat -> letters <> s).
Proof.
  intros show at_ t s letters v U D M L P T N. split.
  - unfold load_description.
    assert (E : decode (match find_attr (txt "Description") at_ with
                        | Some v => v | None => AText (txt "No description available.") end) = Ok (AText t)).
    { destruct D as [w t Hv Ht|H].
      - apply find_has in Hv; [|assumption]. rewrite Hv. now apply decode_text.
      - apply find_lacks in H. now rewrite H. }
    rewrite E. cbn [bind]. rewrite truth_on by assumption. cbn [bind]. unfold need.
    apply find_has in L; [|assumption]. apply find_has in T; [|assumption]. rewrite L, T. cbn [bind joined].
    rewrite (join_plus _ _ P). destruct v; try reflexivity. now destruct (N t0).
  - intros Hl E. subst letters.
    assert (G : forall l r, plus (map (fun c : ascii => [c]) l) r -> (length r = length l + 3 * (length l - 1))%nat).
    { clear. induction l as [|c l IH]; intros r H; [inversion H|]. inversion H as [x E|x l' s H' E]; subst.
      - destruct l; [reflexivity|discriminate].
      - rewrite !app_length. rewrite (IH s H'). destruct l; [inversion H'|]. cbn. lia. }
    specialize (G s s P). lia.
Qed.

(** * A case: the density of a catalogue *)

Definition density : attributes :=
  [(txt "U_I exponent", ANums [0%Q]); (txt "U_L exponent", ANums [(-3)%Q]); (txt "U_M exponent", ANums [1%Q]);
   (txt "U_T exponent", ANums [0%Q]); (txt "U_t exponent", ANums [0%Q]); (txt "a-scale exponent", ANums [(-3)%Q]);
   (txt "Description", ABytes (Some (txt "Mean density"))); (txt "Masked", ANum 1%Q);
   (txt "Mask Datasets", ATexts [txt "gas"; txt "stars"]); (txt "Mask Threshold", ANum 20%Q);
   (txt "Is Compressed", ANums [1%Q]); (txt "Lossy compression filter", ABytes (Some (txt "FMantissa9")))].

Example C106_density_case : unique density /\ has_exponents density (mk_exponents 0 (-3) 1 0 0) /\
  number_or density (txt "a-scale exponent") 0 (-3) /\ number_or density (txt "Value stored as physical") 0 0 /\
  number_or density (txt "Property can be converted to comoving") 1 1 /\ described density (txt "Mean density") /\
  restricted (fun _ => txt "20") density (txt "Only computed for objects where gas + stars >= 20.") /\
  compressed density (txt "FMantissa9") /\
  load_description (fun _ => txt "20") density
  = Ok (txt "Mean density Only computed for objects where gas + stars >= 20.").
Proof.
  assert (U : unique density).
  { unfold unique, density. cbn. repeat constructor; cbn; intros H; repeat (destruct H as [H|H]; [discriminate H|]); exact H. }
  assert (M : on density (txt "Masked")).
  { exists (ANum 1%Q), 1%Q. split; [apply find_has; [assumption|reflexivity]|]. split; [constructor|]. discriminate. }
  split; [assumption|]. split.
  { unfold has_exponents, unit_keys. repeat (constructor; [exists []; apply find_has; [assumption|reflexivity]|]). constructor. }
  split. { left. exists []. apply find_has; [assumption|reflexivity]. }
  split. { right. split; [apply find_lacks|]; reflexivity. }
  split. { right. split; [apply find_lacks|]; reflexivity. }
  split. { apply (described_by _ (ABytes (Some (txt "Mean density")))); [apply find_has; [assumption|reflexivity]|constructor]. }
  split.
  { apply (restricted_to (fun _ => txt "20") density [txt "gas"; txt "stars"] (txt "gas + stars") (ANum 20%Q)); [assumption| | | |discriminate].
    - apply find_has; [assumption|reflexivity].
    - apply (plus_more (txt "gas") [txt "stars"] (txt "stars")). constructor.
    - apply find_has; [assumption|reflexivity]. }
  split; [|reflexivity].
  apply (compressed_by _ (ABytes (Some (txt "FMantissa9")))); [right|apply find_has; [assumption|reflexivity]|constructor].
  exists (ANums [1%Q]), 1%Q. split; [apply find_has; [assumption|reflexivity]|]. split; [constructor|discriminate].
Qed.

Print Assumptions C106_description.
Print Assumptions C106_compression.
Print Assumptions C106_units.
Print Assumptions C106_made.
Print Assumptions C106_no_units.
Print Assumptions C106_no_dataset.
Print Assumptions C106_no_mask_dataset.
Print Assumptions C106_bytes_refuted.
Print Assumptions C106_locked_comoving.
Print Assumptions C106_read_error.
Print Assumptions C106_labels_differ_refuted.
Print Assumptions C106_not_numbers.
Print Assumptions C106_not_number_scale.
Print Assumptions C106_text_flags.
Print Assumptions C106_byte_codes.
Print Assumptions C106_not_utf8.
Print Assumptions C106_letters_refuted.

(** Proofs: calls and histories of the mask object with names. *)
From Coq Require Import String Ascii List ZArith QArith Lia Bool Permutation.
From Verif Require Import Base BaseLemmas RangesModel RangesSpec SortModel SortProofs MaskModel MaskSpec
     NamesModel SubsetModel MaskNamesModel MaskNamesSpec MaskNamesProofs MaskNamesStepProofs.
Import ListNotations.
Open Scope Z_scope.

(** * Cell masks *)

Lemma agrees_keys {A} (d : dict A) md mm o (F : mask_key -> A) :
  static md mm o ->
  (forall i k key, nth_error (kn md) i = Some k -> nth_error (mm_keys mm) i = Some key -> dget k d = Some (F key)) ->
  agrees d (kn md) (map F (mm_keys mm)).
Proof.
  intros HS H. split; [rewrite map_length; now apply (static_keys_length _ _ o)|].
  intros i k v Hk Hv. rewrite nth_error_map in Hv. destruct (nth_error (mm_keys mm) i) as [key|] eqn:E; [|discriminate].
  cbn in Hv. injection Hv as <-. now apply (H i).
Qed.

Lemma agrees_keys_get {A} (d : dict A) md mm (F : mask_key -> A) i k key :
  agrees d (kn md) (map F (mm_keys mm)) ->
  nth_error (kn md) i = Some k -> nth_error (mm_keys mm) i = Some key -> dget k d = Some (F key).
Proof. intros [_ H] Hk E. apply (H i); [exact Hk|]. now rewrite nth_error_map, E. Qed.

Lemma full_mask_sim md mm o : kind_ok md -> static md mm o ->
  agrees (full_mask md o) (kn md) (full_cell_mask mm).
Proof.
  intros HK HS. unfold full_cell_mask. apply agrees_keys with o; [exact HS|].
  intros i k key Hk Ek. unfold full_mask. rewrite mask_names_kn by exact HK.
  rewrite (dget_dmerge (fun _ => map (fun _ => true) (mo_centres o))).
  - destruct (in_dec string_dec k (map fst (map (fun g => (g, map (fun _ => true) (mo_centres o))) (kn md)))) as [_|N].
    + f_equal. pose proof (s_centres _ _ _ HS key (nth_error_In _ _ Ek)) as L. clear - L.
      revert L. generalize (mo_centres o). induction (key_cells key) as [|c l IH]; intros [|v m] L; cbn in *; try discriminate;
        [reflexivity|]. f_equal. apply IH. lia.
    + exfalso. apply N. rewrite map_map. cbn. rewrite map_id. now apply nth_error_In with i.
  - intros kv Hi. apply in_map_iff in Hi. destruct Hi as (g & <- & _). reflexivity.
Qed.

Lemma combine_min_max cells : combine (map cell_min cells) (map cell_max cells) = map (fun c => (cell_min c, cell_max c)) cells.
Proof. apply combine_map_map. Qed.

Lemma restrict_axis_sim md mm o restrict cm (F : mask_key -> list bool) a :
  kind_ok md -> NoDup (kn md) -> static md mm o ->
  agrees cm (kn md) (map F (mm_keys mm)) ->
  if out_of_window (mm_box mm a) (fst (restrict a)) (snd (restrict a))
  then restrict_axis md o restrict cm a = Err ValueError
  else exists cm', restrict_axis md o restrict cm a = Ok cm' /\
         agrees cm' (kn md) (map (fun key => cell_mask_axis (mm_box mm) restrict (key_cells key) (F key) a) (mm_keys mm)).
Proof.
  intros HK ND HS HA. unfold restrict_axis, cell_mask_axis. rewrite (s_box _ _ _ HS).
  destruct (restrict a) as [lower upper]. cbn [fst snd].
  destruct (out_of_window (md_box md a) lower upper); [reflexivity|].
  destruct (axis_interval (md_box md a) lower upper) as [[lo up]|].
  2: { exists cm. split; [reflexivity|]. exact HA. }
  rewrite mask_names_kn by exact HK.
  pose (new := fun k => match dget k cm, dget k (mo_min o), dget k (mo_max o) with
      | Some m, Some mn, Some mx =>
         masked_assign m m (map (fun mm => axis_selects (md_box md a) lo up (fst mm a) (snd mm a))
                       (compress m (combine mn mx)))
      | _, _, _ => []
      end).
  assert (G : forall i k key, nth_error (kn md) i = Some k -> nth_error (mm_keys mm) i = Some key ->
     dget k cm = Some (F key) /\ dget k (mo_min o) = Some (map cell_min (key_cells key)) /\
     dget k (mo_max o) = Some (map cell_max (key_cells key))).
  { intros i k key Hk Ek. split; [|split].
    - now apply (agrees_keys_get _ md mm F i).
    - now apply (agrees_keys_get _ md mm (fun key => map cell_min (key_cells key)) i); [apply HS| |].
    - now apply (agrees_keys_get _ md mm (fun key => map cell_max (key_cells key)) i); [apply HS| |]. }
  destruct (fold_dset (fun k => k) (fun g cm => restrict_group o (md_box md a) lo up a cm g) new (kn md) cm)
    as (d' & E & H & _).
  - now rewrite map_id.
  - intros k d Hk Hd. apply In_nth in Hk. destruct Hk as [i Hi].
    destruct (nth_some_of_length (kn md) (mm_keys mm) i k (static_keys_length _ _ _ HS) Hi) as [key Ek].
    destruct (G i k key Hi Ek) as (G1 & G2 & G3).
    unfold restrict_group, entry. rewrite Hd, G1, G2, G3. cbn [bind]. unfold new. now rewrite G1, G2, G3.
  - exists d'. split; [exact E|]. apply agrees_keys with o; [exact HS|]. intros i k key Hk Ek.
    rewrite H by now apply nth_error_In with i. f_equal. unfold new.
    destruct (G i k key Hk Ek) as (G1 & G2 & G3). rewrite G1, G2, G3.
    f_equal. rewrite combine_min_max, compress_map_r, map_map. reflexivity.
Qed.

Lemma cell_mask_sim md mm o restrict :
  kind_ok md -> NoDup (kn md) -> static md mm o ->
  match generate_cell_mask mm restrict with
  | Ok cms => exists cm, cell_mask_for md o restrict = Ok cm /\ agrees cm (kn md) cms
  | Err e => cell_mask_for md o restrict = Err e
  end.
Proof.
  intros HK ND HS. unfold generate_cell_mask, cell_mask_for, axes. cbn [existsb fold_left bind].
  pose proof (full_mask_sim md mm o HK HS) as H0. unfold full_cell_mask in H0.
  pose proof (restrict_axis_sim md mm o restrict _ _ AX HK ND HS H0) as H1.
  destruct (out_of_window (mm_box mm AX) (fst (restrict AX)) (snd (restrict AX))); cbn [orb].
  { rewrite H1. reflexivity. }
  destruct H1 as (cm1 & -> & H1). cbn [bind].
  pose proof (restrict_axis_sim md mm o restrict _ _ AY HK ND HS H1) as H2.
  destruct (out_of_window (mm_box mm AY) (fst (restrict AY)) (snd (restrict AY))); cbn [orb].
  { rewrite H2. reflexivity. }
  destruct H2 as (cm2 & -> & H2). cbn [bind].
  pose proof (restrict_axis_sim md mm o restrict _ _ AZ HK ND HS H2) as H3.
  destruct (out_of_window (mm_box mm AZ) (fst (restrict AZ)) (snd (restrict AZ))); cbn [orb].
  { rewrite H3. reflexivity. }
  destruct H3 as (cm3 & -> & H3). exists cm3. split; [reflexivity|]. exact H3.
Qed.

(** * The calls *)

Lemma same_masks_cm md o c m : same_masks md o m -> same_masks md (set_cell_mask c o) m.
Proof. destruct m; exact (fun H => H). Qed.
Lemma same_masks_con md o c m : same_masks md o m -> same_masks md (set_constrained c o) m.
Proof. destruct m; exact (fun H => H). Qed.

(** The end of [constrain_spatial]: the particle masks and the label. *)
Lemma spatial_end md mm o st cm' cm :
  NoDup (flat_map slots (kn md)) -> sim md mm o st -> agrees cm' (kn md) cm ->
  exists o', next (fine (set_cell_mask cm' o))
                  (fun o => next (update_masks md o) (fun o => fine (set_constrained CSpatial o))) = fine o' /\
             sim md mm o' (mk_mask_state (Some CSpatial) cm (update_range_masks mm cm (ms_masks st))).
Proof.
  intros ND [HS HC HM HL] HA. cbn [next fine].
  destruct (update_masks_sim md mm (set_cell_mask cm' o) cm (ms_masks st)) as (a' & E & H).
  - now apply static_cm.
  - exact HA.
  - exact ND.
  - now apply same_masks_cm.
  - rewrite E. cbn [next fine]. eexists. split; [reflexivity|].
    constructor; cbn [ms_cell_mask ms_masks ms_constrained].
    + now apply static_con, static_attrs, static_cm.
    + exact HA.
    + now apply same_masks_con.
    + reflexivity.
Qed.

Definition same_outcome (md : meta) (mm : mask_meta) (s : step) (r : outcome) : Prop :=
  snd s = snd r /\ sim md mm (fst s) (fst r).

Lemma same_err md mm o st e : sim md mm o st -> same_outcome md mm (raises e o) (st, Some e).
Proof. now split. Qed.

Lemma spatial_sim md mm o st region union :
  kind_ok md -> NoDup (kn md) -> NoDup (flat_map slots (kn md)) -> sim md mm o st ->
  same_outcome md mm (spatial md region union o) (constrain_spatial mm region union st).
Proof.
  intros HK NDk ND HSim. pose proof HSim as [HS HC HM HL].
  unfold spatial, constrain_spatial. rewrite (s_box _ _ _ HS).
  destruct (sanitize_region (md_box md) region) as [restrict|e]; cbn [get]; [|now apply same_err].
  rewrite HL. pose proof (cell_mask_sim md mm o restrict HK NDk HS) as HG.
  assert (Fresh : same_outcome md mm
    (next (get (cell_mask_for md o restrict) o (fun new_mask => fine (set_cell_mask new_mask o)))
          (fun o => next (update_masks md o) (fun o => fine (set_constrained CSpatial o))))
    match generate_cell_mask mm restrict with
    | Ok new_mask => (mk_mask_state (Some CSpatial) new_mask (update_range_masks mm new_mask (ms_masks st)), None)
    | Err e => (st, Some e)
    end).
  { destruct (generate_cell_mask mm restrict) as [cms|e].
    - destruct HG as (cm & -> & HA). cbn [get].
      destruct (spatial_end md mm o st cm cms ND HSim HA) as (o' & E & H). rewrite E. now split.
    - rewrite HG. cbn [get next]. now apply same_err. }
  destruct (ms_constrained st) as [[| | |]|]; destruct union; try exact Fresh; try now apply same_err.
  clear Fresh. destruct (generate_cell_mask mm restrict) as [cms|e].
  2: { rewrite HG. cbn [get next]. now apply same_err. }
  destruct HG as (cm & -> & HA). cbn [get].
  assert (L1 : length (ms_cell_mask st) = length (kn md)) by now apply agrees_length in HC.
  assert (L2 : length cms = length (kn md)) by now apply agrees_length in HA.
  match goal with |- context[for_each (update_list md) ?b o] => set (body := b) end.
  pose (new := fun k => match dget k (mo_cell_mask o), dget k cm with
      | Some old, Some new => map (fun xy : bool * bool => orb (fst xy) (snd xy)) (combine old new)
      | _, _ => [] end).
  assert (HX : exists c', for_each (update_list md) body o = fine (set_cell_mask c' o) /\
            agrees c' (kn md) (map (fun ab => map (fun xy : bool * bool => orb (fst xy) (snd xy))
                                         (combine (fst ab) (snd ab)))
                          (combine (ms_cell_mask st) cms))).
  { rewrite update_list_kn, for_each_map.
    assert (E0 : for_each (kn md) (fun x => body (under x)) o
                 = for_each (kn md) (fun x => body (under x)) (set_cell_mask (mo_cell_mask o) o))
      by now rewrite set_cell_mask_self.
    rewrite E0. clear E0.
    destruct (for_each_slots (fun c => set_cell_mask c o) (fun k => [k]) (fun x => body (under x))
                (fun k _ => Some (new k)) (kn md) (mo_cell_mask o)) as (c' & E & H & _).
    - clear -NDk. induction (kn md) as [|k ks IH]; [constructor|]. inversion NDk as [|? ? N1 N2]; subst.
      cbn. constructor; [|now apply IH]. intros Hi. apply N1. apply in_flat_map in Hi.
      destruct Hi as (y & Hy & [<-|[]]). exact Hy.
    - intros k c Hk Hc. apply In_nth in Hk. destruct Hk as [i Hi].
      destruct (agrees_get _ _ _ _ _ HC Hi) as (v1 & _ & D1).
      destruct (agrees_get _ _ _ _ _ HA Hi) as (v2 & _ & D2).
      eexists. split; [|split].
      + unfold body. rewrite drop_under. unfold entry. cbn [mo_cell_mask set_cell_mask].
        rewrite Hc by now left. rewrite D1, D2. cbn [get]. reflexivity.
      + intros s [<-|[]]. cbn [mo_cell_mask set_cell_mask]. rewrite dget_dset_eq. unfold new. now rewrite D1, D2.
      + intros s Hs. cbn [mo_cell_mask set_cell_mask]. apply dget_dset_neq. intros ->. apply Hs. now left.
    - exists c'. split; [exact E|]. split.
      + rewrite map_length. now apply combine_length_eq.
      + intros i k v Hk Hv. rewrite nth_error_map in Hv.
        destruct (nth_error (combine (ms_cell_mask st) cms) i) as [[v1 v2]|] eqn:Ec; [|discriminate].
        cbn in Hv. injection Hv as <-. apply nth_error_combine_some in Ec. destruct Ec as [E1 E2].
        rewrite (H k k); [|now apply nth_error_In with i|now left]. unfold new.
        destruct HC as [_ HC]. destruct HA as [_ HA]. now rewrite (HC i k v1 Hk E1), (HA i k v2 Hk E2). }
  destruct HX as (c' & -> & HA').
  destruct (spatial_end md mm o st c' _ ND HSim HA') as (o' & E & H). rewrite E. now split.
Qed.

(** * Properties *)

Lemma group_mapping_get md g i : kind_ok md -> uses_mask md g i ->
  exists k, dget g (group_mapping md) = Some (under k) /\ nth_error (kn md) i = Some k.
Proof.
  intros HK HU. unfold uses_mask in HU. unfold group_mapping, kn.
  destruct (kind_cases _ HK) as [E|E]; rewrite E in *; cbn [shared_cell_counts].
  - exists g. rewrite (dget_dmerge under).
    + destruct (in_dec _ _ _) as [_|N]; [split; [reflexivity|exact HU]|].
      exfalso. apply N. rewrite map_map. cbn. rewrite map_id. now apply nth_error_In with i.
    + intros kv Hi. apply in_map_iff in Hi. destruct Hi as (x & <- & _). reflexivity.
  - destruct HU as [HI ->]. exists "shared"%string. rewrite (dget_dmerge (fun _ => "_shared"%string)).
    + destruct (in_dec _ _ _) as [_|N]; [now split|].
      exfalso. apply N. rewrite map_map. cbn. rewrite map_id. exact HI.
    + intros kv Hi. apply in_map_iff in Hi. destruct Hi as (x & <- & _). reflexivity.
Qed.

Lemma group_mapping_none md g : ~ In g (names md) -> dget g (group_mapping md) = None.
Proof.
  intros H. unfold group_mapping. destruct (shared_cell_counts (md_kind md)).
  - rewrite (dget_dmerge (fun _ => "_shared"%string)).
    + destruct (in_dec _ _ _) as [N|_]; [|reflexivity]. rewrite map_map in N. cbn in N. now rewrite map_id in N.
    + intros kv Hi. apply in_map_iff in Hi. destruct Hi as (x & <- & _). reflexivity.
  - rewrite (dget_dmerge under).
    + destruct (in_dec _ _ _) as [N|_]; [|reflexivity]. rewrite map_map in N. cbn in N. now rewrite map_id in N.
    + intros kv Hi. apply in_map_iff in Hi. destruct Hi as (x & <- & _). reflexivity.
Qed.

Lemma nth_error_upd' {A} (l : list A) i j (x : A) :
  nth_error (upd i x l) j = if Nat.eqb i j then match nth_error l j with Some _ => Some x | None => None end
                            else nth_error l j.
Proof.
  revert i j. induction l as [|y l IH]; intros [|i] [|j]; cbn; try reflexivity;
    try (destruct (Nat.eqb i j); reflexivity). apply IH.
Qed.

Lemma NoDup_nth_eq {A} (l : list A) i j x : NoDup l -> nth_error l i = Some x -> nth_error l j = Some x -> i = j.
Proof.
  intros ND Hi Hj. apply (NoDup_nth_error l); [exact ND| |congruence].
  apply nth_error_Some. congruence.
Qed.

Lemma under_not_size md a b :
  NoDup (flat_map slots (kn md)) -> In a (kn md) -> In b (kn md) -> size_of (under a) <> under b.
Proof.
  intros ND Ha Hb E. induction (kn md) as [|k ks IH]; [destruct Ha|].
  cbn in ND. inversion ND as [|? ? N1 N2]; subst. inversion N2 as [|? ? N3 N4]; subst.
  destruct Ha as [<-|Ha], Hb as [<-|Hb].
  - now apply slots_differ in E.
  - apply N3. apply in_flat_map. exists b. split; [exact Hb|]. left. now symmetry.
  - apply N1. right. apply in_flat_map. exists a. split; [exact Ha|]. right. now left.
  - now apply IH.
Qed.

Lemma property_known md mm o st g q i lower upper :
  kind_ok md -> NoDup (kn md) -> NoDup (flat_map slots (kn md)) -> sim md mm o st ->
  uses_mask md g i ->
  same_outcome md mm (property md g q lower upper o)
               (constrain_property mm i (md_fields md g q) lower upper st).
Proof.
  intros HK NDk ND HSim HU. unfold property, constrain_property.
  destruct (to_bool_sim md mm o st (kind_cases _ HK) NDk ND HSim) as (o1 & -> & H1). cbn [next fine].
  destruct (group_mapping_get md g i HK HU) as (k & E1 & E2). unfold entry. rewrite E1. cbn [get].
  destruct (convert_masks_to_bool mm (ms_masks st)) as [l|l] eqn:Ec.
  { destruct (ms_masks st); discriminate. }
  pose proof H1 as [HS HC (HR & HM & HZ) HL]. cbn [ms_cell_mask ms_constrained] in HC, HL.
  pose proof (agrees_map_length _ _ _ _ _ HM) as Ll.
  destruct (nth_some_of_length _ _ _ _ Ll E2) as [[current size] Ex].
  pose proof (agrees_map_get _ _ _ _ _ _ _ _ HM E2 Ex) as G. cbn [fst] in G.
  unfold attribute. rewrite G. cbn [get].
  destruct (md_fields md g q) as [vals|]; [|now apply same_err]. rewrite Ex.
  set (new := masked_assign current current (map (fun v => qltb lower v && Qle_bool v upper) (compress current vals))).
  split; [reflexivity|]. cbn [fst fine].
  constructor; cbn [ms_cell_mask ms_masks ms_constrained].
  - now apply static_con, static_attrs.
  - exact HC.
  - cbn [same_masks]. split; [exact HR|]. cbn [mo_attrs set_constrained setattr set_attrs].
    split; apply agrees_map_intro; rewrite ?upd_length; try exact Ll; intros j k' v Hk Hv;
      rewrite nth_error_upd' in Hv.
    + rewrite dget_dset. destruct (Nat.eqb_spec i j) as [<-|N].
      * rewrite Ex in Hv. injection Hv as <-. assert (k' = k) by congruence. subst.
        now rewrite String.eqb_refl.
      * destruct (String.eqb_spec (under k') (under k)) as [E|_].
        -- apply under_inj in E. subst. exfalso. apply N. now apply (NoDup_nth_eq (kn md) i j k).
        -- apply (agrees_map_get _ _ _ _ _ _ _ _ HM Hk Hv).
    + rewrite dget_dset_neq.
      * destruct (Nat.eqb_spec i j) as [<-|N].
        -- rewrite Ex in Hv. injection Hv as <-. exact (agrees_map_get _ _ _ _ _ _ _ _ HZ Hk Ex).
        -- apply (agrees_map_get _ _ _ _ _ _ _ _ HZ Hk Hv).
      * apply (under_not_size md); [exact ND| |]; eapply nth_error_In; eassumption.
  - reflexivity.
Qed.

Lemma property_unknown md mm o st g q i lower upper :
  kind_ok md -> NoDup (kn md) -> NoDup (flat_map slots (kn md)) -> sim md mm o st ->
  ~ In g (names md) ->
  same_outcome md mm (property md g q lower upper o) (constrain_property mm i None lower upper st).
Proof.
  intros HK NDk ND HSim HU. unfold property, constrain_property.
  destruct (to_bool_sim md mm o st (kind_cases _ HK) NDk ND HSim) as (o1 & -> & H1). cbn [next fine].
  unfold entry. rewrite (group_mapping_none _ _ HU). cbn [get].
  destruct (convert_masks_to_bool mm (ms_masks st)) as [l|l] eqn:Ec; now apply same_err.
Qed.

(** * Rows *)

Lemma indices_body_sim md mm o st l :
  kind_ok md -> NoDup (flat_map slots (kn md)) -> sim md mm o st ->
  same_outcome md mm (indices_body md l o) (constrain_indices_body mm l st).
Proof.
  intros HK ND HSim. pose proof HSim as [HS HC HM HL]. unfold indices_body, constrain_indices_body.
  rewrite HL, (s_hom _ _ _ HS). destruct (ms_constrained st); [now apply same_err|].
  destruct (kind_cases _ HK) as [E|E]; rewrite E; cbn [homogeneous_arrays negb]; [now apply same_err|].
  assert (EK : kn md = ["shared"%string]) by (unfold kn; now rewrite E).
  rewrite update_list_kn, EK in *. cbn [map for_each].
  destruct (ms_masks st) as [ls|ls] eqn:Em.
  - destruct HM as (HR & HM & HZ). rewrite HR. cbn [next fine]. rewrite EK in HM, HZ.
    pose proof (agrees_map_length _ _ _ _ _ HM) as Ll.
    destruct ls as [|x [|? ?]]; cbn in Ll; try discriminate.
    split; [reflexivity|]. cbn [fst fine]. constructor; cbn [ms_cell_mask ms_masks ms_constrained].
    + now apply static_attrs, static_attrs.
    + now rewrite EK.
    + cbn [same_masks]. split; [exact HR|]. rewrite EK. cbn [mo_attrs setattr set_attrs map].
      split; (apply agrees_intro; [reflexivity|]); intros [|[|i]] k v Hk Hv; try discriminate; cbn in Hk, Hv;
        injection Hk as <-; injection Hv as <-; dsets; reflexivity.
    + exact HL.
  - destruct HM as (HR & HM & HZ). rewrite HR. rewrite EK in HM, HZ.
    pose proof (agrees_map_length _ _ _ _ _ HM) as Ll.
    destruct ls as [|[m size] [|? ?]]; cbn in Ll; try discriminate.
    pose proof (agrees_map_get _ _ _ _ _ 0%nat _ _ HM eq_refl eq_refl) as G. cbn [fst] in G.
    pose proof (agrees_map_get _ _ _ _ _ 0%nat _ _ HZ eq_refl eq_refl) as G2. cbn [snd] in G2.
    unfold attribute. rewrite G. cbn [get indices_bool_loop].
    destruct (set_indices (zlen m) l) as [comparison|e]; cbn [get next fine raises].
    + split; [reflexivity|]. cbn [fst]. constructor; cbn [ms_cell_mask ms_masks ms_constrained].
      * now apply static_attrs.
      * now rewrite EK.
      * cbn [same_masks]. split; [exact HR|]. rewrite EK. cbn [mo_attrs setattr set_attrs map].
        split; (apply agrees_intro; [reflexivity|]); intros [|[|i]] k v Hk Hv; try discriminate; cbn in Hk, Hv;
          injection Hk as <-; injection Hv as <-; cbn [fst snd fine mo_attrs setattr set_attrs]; dsets; [reflexivity|exact G2].
      * exact HL.
    + split; [reflexivity|]. cbn [fst]. constructor; cbn [ms_cell_mask ms_masks ms_constrained].
      * exact HS.
      * now rewrite EK.
      * cbn [same_masks]. rewrite EK. now repeat split; try apply HM; try apply HZ.
      * exact HL.
Qed.

Lemma label_sim md mm s r c : same_outcome md mm s r ->
  same_outcome md mm (next s (fun o => fine (set_constrained c o))) (with_label c r).
Proof.
  destruct s as [o [e|]], r as [st [e'|]]; intros [H1 H2]; cbn in H1, H2; try discriminate; cbn [next with_label].
  - now split.
  - split; [reflexivity|]. destruct H2 as [HS HC HM HL]. cbn [fst fine].
    constructor; cbn [ms_cell_mask ms_masks ms_constrained]; try assumption.
    + now apply static_con.
    + reflexivity.
Qed.

Lemma indices_sim md mm o st l :
  kind_ok md -> NoDup (flat_map slots (kn md)) -> sim md mm o st ->
  same_outcome md mm (indices md l o) (constrain_indices mm l st).
Proof. intros HK ND HSim. unfold indices, constrain_indices. now apply label_sim, indices_body_sim. Qed.

Lemma index_sim md mm o st i :
  kind_ok md -> NoDup (flat_map slots (kn md)) -> sim md mm o st ->
  same_outcome md mm (index md i o) (constrain_index mm i st).
Proof.
  intros HK ND HSim. unfold index, constrain_index. rewrite (sim_con _ _ _ _ HSim).
  destruct (ms_constrained st); [now apply same_err|]. now apply label_sim, indices_sim.
Qed.

(** * Histories *)

Lemma call_sim md mm o st c op :
  kind_ok md -> NoDup (kn md) -> NoDup (flat_map slots (kn md)) -> sim md mm o st ->
  same_call md c op -> same_outcome md mm (call_step md c o) (mask_step mm op st).
Proof.
  intros HK NDk ND HSim H. destruct H; cbn [call_step mask_step].
  - now apply spatial_sim.
  - now apply property_known.
  - now apply property_unknown.
  - now apply index_sim.
  - now apply indices_sim.
  - destruct (to_ranges_sim md mm o st ND HSim) as (o' & -> & H). now split.
  - destruct (to_bool_sim md mm o st (kind_cases _ HK) NDk ND HSim) as (o' & -> & H). now split.
Qed.

Lemma run_sim md mm : kind_ok md -> NoDup (kn md) -> NoDup (flat_map slots (kn md)) ->
  forall cs ops o st, sim md mm o st -> Forall2 (same_call md) cs ops ->
  snd (call_run md cs o) = snd (mask_run mm ops st) /\
  sim md mm (fst (call_run md cs o)) (fst (mask_run mm ops st)).
Proof.
  intros HK NDk ND cs ops o st HSim HF. revert o st HSim.
  induction HF as [|c op cs ops H HF IH]; intros o st HSim; cbn [call_run mask_run]; [now split|].
  pose proof (call_sim md mm o st c op HK NDk ND HSim H) as [E S].
  destruct (call_step md c o) as [o1 e1], (mask_step mm op st) as [st1 e2]. cbn in E, S. subst.
  destruct (IH o1 st1 S) as [E2 S2].
  destruct (call_run md cs o1) as [o2 es2], (mask_run mm ops st1) as [st2 es3]. cbn in *. subst. now split.
Qed.

(** * Reading a mask by name *)

Lemma size_mapping_get md g i : kind_ok md -> uses_mask md g i ->
  exists k, dget (size_of g) (group_size_mapping md) = Some (size_of (under k)) /\ nth_error (kn md) i = Some k.
Proof.
  intros HK HU. unfold uses_mask in HU. unfold group_size_mapping, kn.
  destruct (kind_cases _ HK) as [E|E]; rewrite E in *; cbn [shared_cell_counts].
  - exists g. rewrite (dget_dmerge under).
    + destruct (in_dec _ _ _) as [_|N]; [split; [reflexivity|exact HU]|].
      exfalso. apply N. rewrite map_map. cbn. apply in_map. now apply nth_error_In with i.
    + intros kv Hi. apply in_map_iff in Hi. destruct Hi as (x & <- & _). reflexivity.
  - destruct HU as [HI ->]. exists "shared"%string. rewrite (dget_dmerge (fun _ => "_shared_size"%string)).
    + destruct (in_dec _ _ _) as [_|N]; [now split|].
      exfalso. apply N. rewrite map_map. cbn. now apply in_map.
    + intros kv Hi. apply in_map_iff in Hi. destruct Hi as (x & <- & _). reflexivity.
Qed.

Lemma size_mapping_values md : exists f, forall kv, In kv (group_size_mapping md) -> snd kv = f (fst kv).
Proof.
  unfold group_size_mapping. destruct (shared_cell_counts (md_kind md)).
  - exists (fun _ => "_shared_size"%string). intros kv Hi.
    assert (G : forall l d, (forall kv : string * string, In kv d -> snd kv = "_shared_size"%string) ->
                (forall kv, In kv l -> snd kv = "_shared_size"%string) ->
                forall kv, In kv (dmerge d l) -> snd kv = "_shared_size"%string).
    { clear. induction l as [|[k v] l IH]; intros d Hd Hl kv Hi; [now apply Hd|].
      change (dmerge d ((k, v) :: l)) with (dmerge (dset k v d) l) in Hi.
      apply (IH (dset k v d)); [| |exact Hi].
      - intros kv' H'. assert (Hv : v = "_shared_size"%string) by (apply (Hl (k, v)); now left). clear - H' Hd Hv.
        induction d as [|[k1 v1] d IHd]; cbn in H'.
        + destruct H' as [<-|[]]. exact Hv.
        + destruct (String.eqb k k1).
          * destruct H' as [<-|H']; [exact Hv|]. apply Hd. now right.
          * destruct H' as [<-|H']; [apply Hd; now left|]. apply IHd; [|exact H']. intros; apply Hd; now right.
      - intros kv' H'. apply Hl. now right. }
    apply (G (map (fun g => (size_of g, "_shared_size"%string)) (present_names md)) []); [now intros ? []| |exact Hi].
    intros kv' H'. apply in_map_iff in H'. destruct H' as (x & <- & _). reflexivity.
  - exists under. intros kv Hi.
    assert (G : forall l d, (forall kv : string * string, In kv d -> snd kv = under (fst kv)) ->
                (forall kv, In kv l -> snd kv = under (fst kv)) ->
                forall kv, In kv (dmerge d l) -> snd kv = under (fst kv)).
    { clear. induction l as [|[k v] l IH]; intros d Hd Hl kv Hi; [now apply Hd|].
      change (dmerge d ((k, v) :: l)) with (dmerge (dset k v d) l) in Hi.
      apply (IH (dset k v d)); [| |exact Hi].
      - intros kv' H'. assert (Hv : v = under k) by (apply (Hl (k, v)); now left). clear - H' Hd Hv.
        induction d as [|[k1 v1] d IHd]; cbn in H'.
        + destruct H' as [<-|[]]. exact Hv.
        + destruct (String.eqb_spec k k1) as [->|].
          * destruct H' as [<-|H']; [exact Hv|]. apply Hd. now right.
          * destruct H' as [<-|H']; [apply Hd; now left|]. apply IHd; [|exact H']. intros; apply Hd; now right.
      - intros kv' H'. apply Hl. now right. }
    apply (G (map (fun g => (size_of g, size_of (under g))) (present_names md)) []); [now intros ? []| |exact Hi].
    intros kv' H'. apply in_map_iff in H'. destruct H' as (x & <- & _). reflexivity.
Qed.

Lemma in_dict_keys {A} k (d : dict A) : In k (map fst d) <-> exists v, dget k d = Some v.
Proof.
  destruct (dget k d) as [v|] eqn:E.
  - split; [intros _; now exists v|]. intros _. destruct (in_dec string_dec k (map fst d)) as [|N]; [assumption|].
    apply dget_none in N. congruence.
  - split; [|intros [v Hv]; discriminate]. apply dget_none in E. contradiction.
Qed.

Lemma size_mapping_keys md k : In k (map fst (group_size_mapping md)) <-> exists g, In g (names md) /\ k = size_of g.
Proof.
  rewrite in_dict_keys. unfold group_size_mapping. destruct (shared_cell_counts (md_kind md)).
  - rewrite (dget_dmerge (fun _ => "_shared_size"%string))
      by (intros kv Hi; apply in_map_iff in Hi; destruct Hi as (x & <- & _); reflexivity).
    rewrite map_map. cbn [fst].
    destruct (in_dec string_dec k (map (fun g => size_of g) (present_names md))) as [N|N].
    + split; [|now eexists]. intros _. apply in_map_iff in N. destruct N as (g & <- & Hg). now exists g.
    + split; [intros [v Hv]; discriminate|]. intros (g & Hg & ->). exfalso. apply N. now apply in_map.
  - rewrite (dget_dmerge under)
      by (intros kv Hi; apply in_map_iff in Hi; destruct Hi as (x & <- & _); reflexivity).
    rewrite map_map. cbn [fst].
    destruct (in_dec string_dec k (map (fun g => size_of g) (present_names md))) as [N|N].
    + split; [|now eexists]. intros _. apply in_map_iff in N. destruct N as (g & <- & Hg). now exists g.
    + split; [intros [v Hv]; discriminate|]. intros (g & Hg & ->). exfalso. apply N. now apply in_map.
Qed.

Lemma merged_mapping md name :
  dget name (dmerge (group_mapping md) (group_size_mapping md))
  = match dget name (group_size_mapping md) with Some v => Some v | None => dget name (group_mapping md) end.
Proof.
  destruct (size_mapping_values md) as [f Hf]. rewrite (dget_dmerge f) by exact Hf.
  destruct (in_dec string_dec name (map fst (group_size_mapping md))) as [N|N].
  - apply in_dict_keys in N. destruct N as [v Hv]. rewrite Hv. f_equal. symmetry.
    apply dget_finds in Hv. destruct Hv as (b & a & Hd & _).
    apply (Hf (name, v)). rewrite Hd. apply in_or_app. right. now left.
  - apply dget_none in N. now rewrite N.
Qed.

Lemma uses_mask_in md g i : kind_ok md -> uses_mask md g i -> In g (names md).
Proof.
  intros HK HU. unfold uses_mask in HU. destruct (kind_cases _ HK) as [E|E]; rewrite E in HU.
  - now apply nth_error_In with i.
  - apply HU.
Qed.

Lemma getattr_sim md mm o st g i :
  kind_ok md -> names_ok md -> sim md mm o st -> uses_mask md g i ->
  exists v n, mask_getattr md o g = Ok v /\ mask_getattr md o (size_of g) = Ok (VSize n) /\
              mask_value (ms_masks st) i v n.
Proof.
  intros HK HN [HS HC HM HL] HU. unfold mask_getattr. rewrite !merged_mapping.
  destruct (group_mapping_get md g i HK HU) as (k & E1 & E2).
  destruct (size_mapping_get md g i HK HU) as (k' & E3 & E4). assert (k' = k) by congruence. subst k'.
  rewrite E3.
  assert (E5 : dget g (group_size_mapping md) = None).
  { apply dget_none. unfold lacks. intros Hi. apply size_mapping_keys in Hi. destruct Hi as (b & Hb & E).
    destruct HN as [_ HN]. apply (HN g b); [now apply (uses_mask_in md g i)|exact Hb|exact E]. }
  rewrite E5, E1. unfold attribute, mask_value.
  destruct (ms_masks st) as [l|l]; destruct HM as (HR & HM & HZ);
    pose proof (agrees_map_length _ _ _ _ _ HM) as Ll;
    destruct (nth_some_of_length _ _ _ _ Ll E2) as [[x n] Ex];
    pose proof (agrees_map_get _ _ _ _ _ _ _ _ HM E2 Ex) as G; cbn [fst] in G;
    pose proof (agrees_map_get _ _ _ _ _ _ _ _ HZ E2 Ex) as G2; cbn [snd] in G2; rewrite G, G2;
    eexists; eexists; (split; [reflexivity|]); (split; [reflexivity|]); now exists x.
Qed.

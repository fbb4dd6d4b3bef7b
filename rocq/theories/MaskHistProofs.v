(** Outcomes of spatial constraints, reachable states, histories. *)
From Coq Require Import List ZArith QArith Lia Bool Sorted Permutation.
From Verif Require Import Base BaseLemmas RangesModel RangesSpec RangesProofs SortModel SortProofs
     OrderedSlicesProofs MaskModel MaskSpec MaskListProofs MaskGeomProofs MaskProofs.
Import ListNotations.
Open Scope Z_scope.

Lemma or_cell_masks mm g h :
  map (fun ab => map (fun xy => orb (fst xy) (snd xy)) (combine (fst ab) (snd ab)))
      (combine (cell_masks mm g) (cell_masks mm h))
  = cell_masks mm (fun c => g c || h c).
Proof.
  unfold cell_masks. rewrite combine_map_map, map_map. apply map_ext. intros k. cbn [fst snd].
  rewrite combine_map_map, map_map. reflexivity.
Qed.

(** The four possible outcomes of [constrain_spatial]. *)
Lemma constrain_spatial_cases mm region union st :
  (forall a, (0 < mm_box mm a)%Q) ->
  (exists g, ms_cell_mask st = cell_masks mm g) ->
  (~ well_formed_region region /\ constrain_spatial mm region union st = (st, Some ValueError)) \/
  (well_formed_region region /\ ~ spatial_allowed st union /\
   constrain_spatial mm region union st = (st, Some RuntimeError)) \/
  (well_formed_region region /\ spatial_allowed st union /\
   ~ region_in_window (mm_box mm) region /\
   constrain_spatial mm region union st = (st, Some ValueError)) \/
  (well_formed_region region /\ spatial_allowed st union /\
   region_in_window (mm_box mm) region /\
   exists restrict g, sanitize_region (mm_box mm) region = Ok restrict /\
     ms_cell_mask st = cell_masks mm g /\
     let g' c := match ms_constrained st with
                 | None => cell_ok (mm_box mm) restrict c
                 | Some _ => g c || cell_ok (mm_box mm) restrict c
                 end in
     constrain_spatial mm region union st
     = (mk_mask_state (Some CSpatial) (cell_masks mm g')
                      (update_range_masks mm (cell_masks mm g') (ms_masks st)), None)).
Proof.
  intros Hb [g Hg].
  destruct (sanitize_region (mm_box mm) region) as [restrict|e] eqn:Er.
  2:{ left. split.
      - intros C. apply (sanitize_region_wf (mm_box mm)) in C as [? C]. congruence.
      - pose proof (sanitize_region_err _ _ _ Er) as ->. unfold constrain_spatial. now rewrite Er. }
  right. assert (Hw : well_formed_region region) by (apply (sanitize_region_wf (mm_box mm)); eauto).
  unfold constrain_spatial. rewrite Er, generate_cell_mask_cases.
  pose proof (region_window_iff mm region restrict Hb Er) as Hwin.
  unfold spatial_allowed.
  destruct (ms_constrained st) as [[]|] eqn:Ec; destruct union;
    try (left; split; [assumption|]; split; [|reflexivity]; intros [?|[? ?]]; congruence);
    right; (destruct (existsb _ axes) eqn:Ew;
      [ left; split; [assumption|]; split; [auto|]; split; [|reflexivity];
        intros C; apply Hwin in C; congruence
      | right; split; [assumption|]; split; [auto|]; split; [now apply Hwin|];
        exists restrict, g; split; [reflexivity|]; split; [assumption|] ]).
  - cbv zeta. rewrite Hg. fold (cell_masks mm (cell_ok (mm_box mm) restrict)).
    now rewrite or_cell_masks.
  - reflexivity.
  - reflexivity.
Qed.

(** * Reachable states are good *)

Lemma good_spatial mm region union st st' e :
  wf_meta mm -> good mm st -> constrain_spatial mm region union st = (st', e) -> good mm st'.
Proof.
  intros (Hb & Hf & _) [Hg Hm] H.
  destruct (constrain_spatial_cases mm region union st Hb Hg)
    as [[_ E]|[(_ & _ & E)|[(_ & _ & _ & E)|(_ & _ & _ & r & g & _ & _ & E)]]];
    cbv zeta in E; rewrite E in H; injection H as <- <-; try (now split).
  split; [eexists; reflexivity|]. cbn [ms_masks]. now apply good_update.
Qed.

Lemma constrain_index_cases mm index st :
  constrain_index mm index st =
  match constrain_indices mm [index] st with
  | (st', None) => (mk_mask_state (Some CIndex) (ms_cell_mask st') (ms_masks st'), None)
  | o => o
  end.
Proof.
  unfold constrain_index, constrain_indices, constrain_indices_body.
  destruct (ms_constrained st) eqn:E; [reflexivity|].
  destruct (negb (mm_homogeneous mm)); [reflexivity|].
  destruct (ms_masks st) as [l|l]; [reflexivity|].
  destruct (indices_bool_loop [index] l) as [l' [e|]]; reflexivity.
Qed.

Lemma good_step mm op st :
  wf_meta mm -> good mm st -> ok_op mm op -> good mm (fst (mask_step mm op st)).
Proof.
  intros Hw Hgood Hok. pose proof Hw as (Hb & Hf & Hh). destruct op; cbn [mask_step].
  - destruct (constrain_spatial mm region union st) as [st' e] eqn:E. cbn.
    now apply (good_spatial mm region union st st' e).
  - destruct (constrain_property mm key values lower upper st) as [st' [e|]] eqn:E; cbn.
    + apply constrain_property_err in E as [_ ->]. destruct Hgood as [Hg Hm].
      split; [exact Hg|]. cbn. now apply good_to_bool.
    + destruct values as [vals|].
      * now apply (good_property mm key vals lower upper st).
      * exfalso. clear -E. unfold constrain_property in E.
        destruct (convert_masks_to_bool mm (ms_masks st)); discriminate.
  - cbn in Hok. rewrite constrain_index_cases.
    assert (HI : indices_in_file mm [index]).
    { eapply Forall_impl; [|exact Hok]. intros mk H. now constructor. }
    destruct (constrain_indices_cases mm [index] st Hf Hgood HI)
      as [[E _]|(_ & _ & st' & E & [Hg Hm] & _)]; rewrite E; cbn; [assumption|].
    now split.
  - destruct (constrain_indices_cases mm indices st Hf Hgood Hok)
      as [[E _]|(_ & _ & st' & E & H & _)]; rewrite E; assumption.
  - destruct Hgood as [Hg Hm]. split; [exact Hg|]. cbn. now apply good_to_ranges.
  - destruct Hgood as [Hg Hm]. split; [exact Hg|]. cbn. now apply good_to_bool.
Qed.

Lemma mask_run_cons mm op ops st :
  mask_run mm (op :: ops) st
  = (fst (mask_run mm ops (fst (mask_step mm op st))),
     snd (mask_step mm op st) :: snd (mask_run mm ops (fst (mask_step mm op st)))).
Proof.
  cbn. destruct (mask_step mm op st) as [st' e]. cbn.
  destruct (mask_run mm ops st'). reflexivity.
Qed.

Lemma mask_run_app mm ops1 : forall ops2 st,
  mask_run mm (ops1 ++ ops2) st
  = (fst (mask_run mm ops2 (fst (mask_run mm ops1 st))),
     snd (mask_run mm ops1 st) ++ snd (mask_run mm ops2 (fst (mask_run mm ops1 st)))).
Proof.
  induction ops1 as [|op ops1 IH]; intros ops2 st.
  - cbn. now destruct (mask_run mm ops2 st).
  - cbn [app]. rewrite !mask_run_cons, IH. reflexivity.
Qed.

Lemma good_run mm ops : forall st,
  wf_meta mm -> good mm st -> Forall (ok_op mm) ops -> good mm (fst (mask_run mm ops st)).
Proof.
  induction ops as [|op ops IH]; intros st Hw Hg H; [assumption|].
  rewrite mask_run_cons. cbn [fst]. inversion H; subst.
  apply IH; auto. now apply good_step.
Qed.

Lemma reachable_good mm st : wf_meta mm -> reachable mm st -> good mm st.
Proof.
  intros Hw (ops & H & <-). apply good_run; auto. apply good_new. apply Hw.
Qed.

Lemma reachable_step mm op st :
  reachable mm st -> ok_op mm op -> reachable mm (fst (mask_step mm op st)).
Proof.
  intros (ops & H & <-) Hok. exists (ops ++ [op]). split.
  - apply Forall_app. auto.
  - rewrite mask_run_app, mask_run_cons. reflexivity.
Qed.

(** * Failing calls *)

Lemma same_selection_refl st : same_selection st st.
Proof. intros k i. reflexivity. Qed.

Lemma failing_step mm op st st' e :
  wf_meta mm -> good mm st -> mask_step mm op st = (st', Some e) ->
  same_selection st st' /\ ms_constrained st' = ms_constrained st.
Proof.
  intros (Hb & Hf & Hh) [Hg Hm] H.
  assert (HI : forall indices,
            snd (constrain_indices mm indices st) <> None ->
            fst (constrain_indices mm indices st) = st).
  { intros indices. unfold constrain_indices, constrain_indices_body.
    destruct (ms_constrained st) as [c|] eqn:Ec; [reflexivity|].
    destruct (mm_homogeneous mm) eqn:Eh; cbn [negb]; [|reflexivity].
    destruct (ms_masks st) as [l|l] eqn:Em; cbn; [congruence|].
    assert (Hlen : length l = 1%nat).
    { cbn in Hm. rewrite <- (Forall2_len _ _ _ Hm). now apply Hh. }
    destruct l as [|[m size] [|? ?]]; try discriminate. cbn.
    destruct (set_indices (zlen m) indices) as [c|x]; cbn; [congruence|].
    intros _. destruct st; cbn in *. congruence. }
  destruct op; cbn [mask_step] in H.
  - destruct (constrain_spatial_cases mm region union st Hb Hg)
      as [[_ E]|[(_ & _ & E)|[(_ & _ & _ & E)|(_ & _ & _ & r & g & _ & _ & E)]]];
      cbv zeta in E; rewrite E in H; try discriminate; injection H as <- <-;
      split; auto using same_selection_refl.
  - apply constrain_property_err in H as [_ ->]. split; [|reflexivity].
    intros k i. unfold selected. cbn. symmetry. now apply rows_to_bool.
  - rewrite constrain_index_cases in H. specialize (HI [index]).
    destruct (constrain_indices mm [index] st) as [s [x|]]; [|discriminate].
    injection H as <- <-. cbn in HI. rewrite HI by discriminate.
    split; auto using same_selection_refl.
  - specialize (HI indices). rewrite H in HI. cbn in HI. rewrite HI by discriminate.
    split; auto using same_selection_refl.
  - discriminate.
  - discriminate.
Qed.

(** * Labels *)

Lemma step_label mm op st st' e :
  mask_step mm op st = (st', e) ->
  ms_constrained st' = match e, constraint_of op with
                       | None, Some c => Some c
                       | _, _ => ms_constrained st
                       end.
Proof.
  destruct op; cbn [mask_step constraint_of].
  - unfold constrain_spatial. destruct (sanitize_region _ _); [|now intros [= <- <-]].
    destruct (ms_constrained st) as [[]|] eqn:Ec, union;
      try (destruct (generate_cell_mask _ _)); intros [= <- <-]; cbn; auto.
  - unfold constrain_property. destruct (convert_masks_to_bool _ _), values;
      try (destruct (nth_error _ _) as [[? ?]|]); intros [= <- <-]; reflexivity.
  - rewrite constrain_index_cases.
    destruct (constrain_indices mm [index] st) as [s [x|]] eqn:E; intros [= <- <-]; [|reflexivity].
    unfold constrain_indices, constrain_indices_body, with_label in E.
    destruct (ms_constrained st) eqn:Ec; [now injection E as <- <-|].
    destruct (negb _); [injection E as <- <-; congruence|].
    destruct (ms_masks st) as [l|l]; [discriminate|].
    destruct (indices_bool_loop [index] l) as [l' [y|]]; [|discriminate].
    now injection E as <- <-.
  - unfold constrain_indices, constrain_indices_body, with_label.
    destruct (ms_constrained st) eqn:Ec; [now intros [= <- <-]|].
    destruct (negb _); [intros [= <- <-]; congruence|].
    destruct (ms_masks st) as [l|l]; [intros [= <- <-]; reflexivity|].
    destruct (indices_bool_loop indices l) as [l' [y|]]; intros [= <- <-]; reflexivity.
  - now intros [= <- <-].
  - now intros [= <- <-].
Qed.

(** Which constraint may succeed given the current label. *)
Lemma step_success_label mm op st st' c :
  mask_step mm op st = (st', None) -> constraint_of op = Some c ->
  c = CProperty \/ ms_constrained st = None \/
  (c = CSpatial /\ ms_constrained st = Some CSpatial).
Proof.
  intros H Hc. destruct op; cbn in Hc; try discriminate; injection Hc as <-; auto.
  - cbn in H. unfold constrain_spatial in H. destruct (sanitize_region _ _); [|discriminate].
    destruct (ms_constrained st) as [[]|] eqn:Ec; auto; destruct union; discriminate.
  - cbn in H. unfold constrain_index in H. destruct (ms_constrained st); [discriminate|auto].
  - cbn in H. unfold constrain_indices, constrain_indices_body in H.
    destruct (ms_constrained st); [discriminate|auto].
Qed.

Lemma history_pattern mm ops : forall st,
  let l := successes ops (snd (mask_run mm ops st)) in
  match ms_constrained st with
  | None => exists pre props, l = pre ++ props /\ all_are CProperty props /\
              (all_are CSpatial pre \/ pre = [CIndex] \/ pre = [CIndices])
  | Some CSpatial => exists pre props, l = pre ++ props /\ all_are CProperty props /\
                       all_are CSpatial pre
  | Some _ => all_are CProperty l
  end.
Proof.
  induction ops as [|op ops IH]; intros st.
  - cbn. destruct (ms_constrained st) as [[]|]; try constructor;
      exists [], []; unfold all_are; auto.
  - rewrite mask_run_cons. cbn [snd successes].
    destruct (mask_step mm op st) as [st' e] eqn:E. cbn [fst snd].
    pose proof (step_label _ _ _ _ _ E) as HL. specialize (IH st'). cbv zeta in IH |- *.
    destruct e as [e|]; [rewrite HL in IH; exact IH|].
    destruct (constraint_of op) as [c|] eqn:Ec; [|rewrite HL in IH; exact IH].
    rewrite HL in IH. pose proof (step_success_label _ _ _ _ _ E Ec) as Hs.
    set (l := successes ops (snd (mask_run mm ops st'))) in *.
    destruct c.
    + (* spatial *)
      destruct IH as (pre & props & -> & H1 & H2).
      destruct Hs as [Hs|[Hs|[_ Hs]]]; [discriminate| |]; rewrite Hs;
        exists (CSpatial :: pre), props; (split; [reflexivity|]); split; auto;
        [left|]; now constructor.
    + (* property *)
      assert (P : all_are CProperty (CProperty :: l)) by now constructor.
      destruct (ms_constrained st) as [[]|]; auto;
        exists [], (CProperty :: l); (split; [reflexivity|]); split; auto;
        try left; constructor.
    + destruct Hs as [Hs|[Hs|[Hs _]]]; try discriminate. rewrite Hs.
      exists [CIndex], l. auto.
    + destruct Hs as [Hs|[Hs|[Hs _]]]; try discriminate. rewrite Hs.
      exists [CIndices], l. auto.
Qed.

(** * Sequences of spatial constraints *)

Lemma spatial_fresh mm region union :
  (forall a, (0 < mm_box mm a)%Q) -> ok_region mm region ->
  exists restrict, sanitize_region (mm_box mm) region = Ok restrict /\
    constrain_spatial mm region union (new_mask mm)
    = (mk_mask_state (Some CSpatial) (cell_masks mm (cell_ok (mm_box mm) restrict))
         (update_range_masks mm (cell_masks mm (cell_ok (mm_box mm) restrict)) (InRanges [])), None).
Proof.
  intros Hb [Hw Hwin].
  destruct (constrain_spatial_cases mm region union (new_mask mm) Hb)
    as [[C _]|[(_ & C & _)|[(_ & _ & C & _)|(_ & _ & _ & r & g & Hr & _ & E)]]];
    try contradiction.
  - exists (fun _ => true). reflexivity.
  - exfalso. apply C. now left.
  - exists r. split; [assumption|]. rewrite E. cbn [ms_constrained new_mask ms_masks].
    reflexivity.
Qed.

Lemma spatial_union_run mm regions : forall g l,
  (forall a, (0 < mm_box mm a)%Q) -> Forall (ok_region mm) regions ->
  exists h l',
    mask_run mm (map (fun r => OpSpatial r true) regions)
             (mk_mask_state (Some CSpatial) (cell_masks mm g) (InRanges l))
    = (mk_mask_state (Some CSpatial) (cell_masks mm h) (InRanges l'),
       map (fun _ => None) regions) /\
    (regions = [] -> l' = l) /\
    (regions <> [] -> InRanges l' = update_range_masks mm (cell_masks mm h) (InRanges [])) /\
    forall c, h c = true <->
              g c = true \/ exists r restrict, In r regions /\
                                  sanitize_region (mm_box mm) r = Ok restrict /\
                                  cell_ok (mm_box mm) restrict c = true.
Proof.
  induction regions as [|r regions IH]; intros g l Hb Hok.
  - exists g, l. cbn. split; [reflexivity|]. split; [reflexivity|]. split; [congruence|].
    intros c. split; [auto|]. intros [H|(? & ? & [] & _)]. assumption.
  - inversion Hok as [|? ? [Hw Hwin] Hok']; subst. cbn [map].
    set (st := mk_mask_state (Some CSpatial) (cell_masks mm g) (InRanges l)).
    destruct (constrain_spatial_cases mm r true st Hb)
      as [[C _]|[(_ & C & _)|[(_ & _ & C & _)|(_ & _ & _ & res & g' & Hr & Hg' & E)]]];
      try contradiction.
    + exists g. reflexivity.
    + exfalso. apply C. right. split; reflexivity.
    + cbv zeta in E. cbn [ms_constrained ms_masks st] in E.
      rewrite update_ranges in E. cbn [ms_cell_mask st] in Hg'.
      assert (HG : cell_masks mm (fun c => g' c || cell_ok (mm_box mm) res c)
                   = cell_masks mm (fun c => g c || cell_ok (mm_box mm) res c)).
      { rewrite <- !or_cell_masks. now rewrite Hg'. }
      rewrite mask_run_cons. cbn [mask_step].
      assert (E2 : constrain_spatial mm r true st
        = (mk_mask_state (Some CSpatial) (cell_masks mm (fun c => g c || cell_ok (mm_box mm) res c))
             (update_range_masks mm (cell_masks mm (fun c => g c || cell_ok (mm_box mm) res c)) (InRanges [])), None)).
      { rewrite E. rewrite <- HG, update_ranges. reflexivity. }
      rewrite E2. cbn [fst snd]. rewrite update_ranges.
      destruct (IH (fun c => g c || cell_ok (mm_box mm) res c)
                   (map (fun k => range_mask_of_cells (key_cells k)
                           (map (fun c => g c || cell_ok (mm_box mm) res c) (key_cells k)))
                        (mm_keys mm)) Hb Hok') as (h & l' & Hrun & H0 & H1 & Hh).
      rewrite Hrun. exists h, l'. cbn [fst snd]. split; [reflexivity|]. split; [discriminate|].
      split.
      * intros _. destruct regions as [|r2 regions].
        -- rewrite (H0 eq_refl). cbn in Hrun. injection Hrun as Hcm.
           rewrite <- Hcm, update_ranges. reflexivity.
        -- apply H1. discriminate.
      * intros c. rewrite Hh, orb_true_iff. split.
        -- intros [[H|H]|(r' & res' & Hin & H2 & H3)]; [auto| |].
           ++ right. exists r, res. split; [now left|]. auto.
           ++ right. exists r', res'. split; [now right|]. auto.
        -- intros [H|(r' & res' & [<-|Hin] & H2 & H3)]; [auto| |].
           ++ left. right. rewrite Hr in H2. now injection H2 as <-.
           ++ right. exists r', res'. auto.
Qed.

Lemma union_run_fresh mm regions :
  (forall a, (0 < mm_box mm a)%Q) -> Forall (ok_region mm) regions -> regions <> [] ->
  exists h,
    mask_run mm (map (fun r => OpSpatial r true) regions) (new_mask mm)
    = (mk_mask_state (Some CSpatial) (cell_masks mm h)
                     (update_range_masks mm (cell_masks mm h) (InRanges [])),
       map (fun _ => None) regions) /\
    forall c, h c = true <->
              exists r restrict, In r regions /\
                                  sanitize_region (mm_box mm) r = Ok restrict /\
                                  cell_ok (mm_box mm) restrict c = true.
Proof.
  intros Hb Hok Hne. destruct regions as [|r regions]; [congruence|].
  inversion Hok as [|? ? Hr Hok']; subst. cbn [map]. rewrite mask_run_cons. cbn [mask_step].
  destruct (spatial_fresh mm r true Hb Hr) as (res & Er & E). rewrite E. cbn [fst snd].
  rewrite update_ranges.
  destruct (spatial_union_run mm regions (cell_ok (mm_box mm) res)
     (map (fun k => range_mask_of_cells (key_cells k) (map (cell_ok (mm_box mm) res) (key_cells k)))
          (mm_keys mm)) Hb Hok') as (h & l' & Hrun & H0 & H1 & Hh).
  rewrite Hrun. exists h. cbn [fst snd]. split.
  - f_equal. f_equal. destruct regions as [|r2 regions].
    + rewrite (H0 eq_refl). cbn in Hrun. injection Hrun as Hcm. rewrite <- Hcm, update_ranges. reflexivity.
    + apply H1. discriminate.
  - intros c. rewrite Hh. split.
    + intros [H|(r' & res' & Hin & H2 & H3)].
      * exists r, res. split; [now left|]. auto.
      * exists r', res'. split; [now right|]. auto.
    + intros (r' & res' & [<-|Hin] & H2 & H3).
      * left. rewrite Er in H2. now injection H2 as <-.
      * right. exists r', res'. auto.
Qed.

Lemma update_ranges_ext mm g h l l' :
  (forall c, g c = true <-> h c = true) ->
  update_range_masks mm (cell_masks mm g) (InRanges l)
  = update_range_masks mm (cell_masks mm h) (InRanges l').
Proof.
  intros H. rewrite !update_ranges. f_equal. apply map_ext. intros k. f_equal.
  apply map_ext. intros c. specialize (H c). destruct (g c), (h c); intuition congruence.
Qed.

(** * No duplicates *)

Lemma NoDup_app {A} (l m : list A) :
  NoDup l -> NoDup m -> (forall x, In x l -> ~ In x m) -> NoDup (l ++ m).
Proof.
  induction 1 as [|x l Hx Hl IH]; intros Hm H; cbn; [assumption|].
  constructor.
  - rewrite in_app_iff. intros [C|C]; [contradiction|]. apply (H x); [now left|assumption].
  - apply IH; [assumption|]. intros y Hy. apply H. now right.
Qed.

Lemma FOP_filter {A} (R : A -> A -> Prop) f l :
  ForallOrdPairs R l -> ForallOrdPairs R (filter f l).
Proof.
  induction 1 as [|x l Hx _ IH]; cbn; [constructor|]. destruct (f x); [|assumption].
  constructor; [|assumption]. apply Forall_forall. intros y Hy. apply filter_In in Hy as [Hy _].
  now apply (proj1 (Forall_forall _ _) Hx).
Qed.

Lemma NoDup_cell_ranges cells :
  ForallOrdPairs (fun c d => forall i, ~ (stored_in c i /\ stored_in d i)) cells ->
  NoDup (indices_of (map cell_range cells)).
Proof.
  induction 1 as [|c cells Hc _ IH]; [constructor|].
  cbn [map]. change (indices_of (?r :: ?l)) with (zrange (fst r) (snd r) ++ indices_of l).
  apply NoDup_app; [apply NoDup_zrange|assumption|].
  intros i Hi. rewrite In_cell_ranges. intros (d & Hd & Hdi).
  pose proof (proj1 (Forall_forall _ _) Hc _ Hd) as Hx. apply (Hx i). split; [|assumption].
  apply In_zrange in Hi. unfold stored_in, cell_range in *. cbn in Hi. lia.
Qed.

Definition nodup_masks (m : masks) : Prop := forall k, NoDup (masked_rows m k).

Lemma nodup_bools l : nodup_masks (InBools l).
Proof. intros k. cbn. destruct (nth_error l k); [apply NoDup_rows_true|constructor]. Qed.

Lemma nodup_update mm g m :
  Forall cells_disjoint (mm_keys mm) -> nodup_masks (update_range_masks mm (cell_masks mm g) m).
Proof.
  intros H k. destruct m as [l|l].
  - rewrite rows_update_ranges. destruct (nth_error (mm_keys mm) k) as [mk|] eqn:E; [|constructor].
    apply NoDup_cell_ranges, FOP_filter. apply nth_error_In in E.
    now apply (proj1 (Forall_forall _ _) H) in E.
  - rewrite update_bools. apply nodup_bools.
Qed.

Lemma nodup_step mm op st :
  wf_meta mm -> Forall cells_disjoint (mm_keys mm) -> (exists g, ms_cell_mask st = cell_masks mm g) ->
  nodup_op op -> nodup_masks (ms_masks st) -> nodup_masks (ms_masks (fst (mask_step mm op st))).
Proof.
  intros Hw Hd Hg Hop Hn.
  assert (HI : forall indices, NoDup indices ->
            nodup_masks (ms_masks (fst (constrain_indices mm indices st)))).
  { intros indices Hi. unfold constrain_indices, constrain_indices_body.
    destruct (ms_constrained st) as [c|] eqn:Ec; [assumption|].
    destruct (negb (mm_homogeneous mm)); [assumption|].
    rewrite sorted_indices_np_sort.
    destruct (ms_masks st) as [l|l] eqn:Em; cbn.
    - intros k. cbn. rewrite nth_error_map. destruct (nth_error l k); cbn; [|constructor].
      rewrite ranges_from_array_indices. eapply Permutation_NoDup; [|exact Hi].
      symmetry. apply np_sort_perm.
    - destruct (indices_bool_loop indices l) as [l' [e|]]; apply nodup_bools. }
  destruct op; cbn [mask_step].
  - destruct Hw as (Hb & Hf & _).
    destruct (constrain_spatial_cases mm region union st Hb Hg)
      as [[_ E]|[(_ & _ & E)|[(_ & _ & _ & E)|(_ & _ & _ & r & g & _ & _ & E)]]];
      cbv zeta in E; rewrite E; try assumption. apply nodup_update. assumption.
  - unfold constrain_property. destruct (constrain_property_bools mm (ms_masks st)) as [l E].
    rewrite E. destruct values; try (destruct (nth_error l key) as [[? ?]|]); apply nodup_bools.
  - rewrite constrain_index_cases. specialize (HI [index]).
    destruct (constrain_indices mm [index] st) as [s [x|]]; apply HI; repeat constructor; auto.
  - now apply HI.
  - intros k. cbn. rewrite rows_to_ranges. apply Hn.
  - cbn. destruct (constrain_property_bools mm (ms_masks st)) as [l ->]. apply nodup_bools.
Qed.

Lemma step_cell_mask mm op st :
  wf_meta mm -> (exists g, ms_cell_mask st = cell_masks mm g) ->
  exists g, ms_cell_mask (fst (mask_step mm op st)) = cell_masks mm g.
Proof.
  intros (Hb & _) Hg.
  assert (HI : forall indices, ms_cell_mask (fst (constrain_indices mm indices st)) = ms_cell_mask st).
  { intros indices. unfold constrain_indices, constrain_indices_body.
    destruct (ms_constrained st) as [c|] eqn:Ec; [reflexivity|].
    destruct (negb (mm_homogeneous mm)); [reflexivity|].
    destruct (ms_masks st) as [l|l]; [reflexivity|].
    destruct (indices_bool_loop indices l) as [l' [e|]]; reflexivity. }
  destruct op; cbn [mask_step]; try assumption.
  - destruct (constrain_spatial_cases mm region union st Hb Hg)
      as [[_ E]|[(_ & _ & E)|[(_ & _ & _ & E)|(_ & _ & _ & r & g & _ & _ & E)]]];
      cbv zeta in E; rewrite E; try assumption. cbn. eexists; reflexivity.
  - unfold constrain_property. destruct (constrain_property_bools mm (ms_masks st)) as [l E].
    rewrite E. destruct values; try (destruct (nth_error l key) as [[? ?]|]); assumption.
  - rewrite constrain_index_cases. specialize (HI [index]).
    destruct (constrain_indices mm [index] st) as [s [x|]]; cbn in *; rewrite HI; assumption.
  - rewrite HI. assumption.
Qed.

Lemma nodup_run mm ops : forall st,
  wf_meta mm -> Forall cells_disjoint (mm_keys mm) -> (exists g, ms_cell_mask st = cell_masks mm g) ->
  Forall nodup_op ops -> nodup_masks (ms_masks st) ->
  nodup_masks (ms_masks (fst (mask_run mm ops st))).
Proof.
  induction ops as [|op ops IH]; intros st Hw Hd Hg Hops Hn; [assumption|].
  rewrite mask_run_cons. cbn [fst]. inversion Hops; subst.
  apply IH; auto; [now apply step_cell_mask|now apply nodup_step].
Qed.

(** ** States without a successful constraint *)

Lemma label_persists mm ops : forall st,
  ms_constrained st <> None -> ms_constrained (fst (mask_run mm ops st)) <> None.
Proof.
  induction ops as [|op ops IH]; intros st H; [assumption|].
  rewrite mask_run_cons. cbn [fst]. apply IH.
  destruct (mask_step mm op st) as [st' e] eqn:E. apply step_label in E. cbn. rewrite E.
  destruct e; [assumption|]. destruct (constraint_of op); [discriminate|assumption].
Qed.

Lemma unconstrained_run mm ops : forall st,
  wf_meta mm -> good mm st -> Forall (ok_op mm) ops ->
  ms_constrained (fst (mask_run mm ops st)) = None ->
  same_selection st (fst (mask_run mm ops st)).
Proof.
  induction ops as [|op ops IH]; intros st Hw Hgood Hok H; [apply same_selection_refl|].
  rewrite mask_run_cons in *. cbn [fst] in *. inversion Hok as [|? ? Hop Hops]; subst.
  assert (Hn : ms_constrained (fst (mask_step mm op st)) = None).
  { destruct (ms_constrained (fst (mask_step mm op st))) eqn:E; [|reflexivity].
    exfalso. apply (label_persists mm ops (fst (mask_step mm op st))); [congruence|assumption]. }
  assert (S : same_selection st (fst (mask_step mm op st))).
  { destruct (mask_step mm op st) as [st' e] eqn:E. cbn in *. destruct e as [e|].
    - now apply (failing_step mm op st st' e).
    - pose proof (step_label _ _ _ _ _ E) as L. destruct (constraint_of op) eqn:Ec; [congruence|].
      destruct op; try discriminate; cbn in E; injection E as <-; intros k i; unfold selected; cbn.
      + now rewrite rows_to_ranges.
      + symmetry. apply rows_to_bool; [apply Hw|apply Hgood]. }
  intros k i. rewrite (S k i). apply IH; auto. now apply good_step.
Qed.

Lemma unconstrained_selection mm st :
  wf_meta mm -> reachable mm st -> ms_constrained st = None -> same_selection (new_mask mm) st.
Proof.
  intros Hw (ops & Hok & <-) H. apply unconstrained_run; auto. apply good_new. apply Hw.
Qed.

(** Property C90: the mask object with its names.  See properties.jsonl and MaskNamesSpec.v. *)
From Coq Require Import String Ascii List ZArith QArith Qabs Lia Lra Lqa Bool Permutation.
From Verif Require Import Base BaseLemmas QTac RangesModel RangesSpec SortModel SortProofs MaskModel MaskSpec
     MaskGeomProofs MaskProofs MaskHistProofs MaskCountProofs MaskTheorems NamesModel SubsetModel
     MaskNamesModel MaskNamesSpec MaskNamesProofs MaskNamesStepProofs MaskNamesCallProofs MaskNamesBuildProofs.
Import ListNotations.
Open Scope Z_scope.

(** * The kinds of file *)

(** Where masking is allowed, the class the file is opened with and the type in the header,
    which different parts of masks.py look at, agree. *)
Theorem C90_kinds_agree :
  forall (md : meta) (attr : option string),
  metadata_discriminator attr = Ok (md_kind md) ->
  md_output_type md = match attr with Some t => t | None => ""%string end ->
  kind_ok md <-> md_kind md = KSnapshot \/ md_kind md = KSOAP.
Proof.
  intros md attr H E. split; [apply kind_cases|]. intros HK. unfold kind_ok. rewrite E. clear E.
  unfold metadata_discriminator in H. cbv zeta in H. destruct attr as [t|].
  - destruct (String.eqb_spec t "FullVolume") as [Et|_];
      [rewrite Et; try rewrite Et in H; cbn in H; injection H as <-; left; split; [reflexivity|]; cbn; intros [|[|[|[|[]]]]]; discriminate|].
    destruct (String.eqb_spec t "VolumeSubset") as [Et|_];
      [rewrite Et; try rewrite Et in H; cbn in H; injection H as <-; left; split; [reflexivity|]; cbn; intros [|[|[|[|[]]]]]; discriminate|].
    cbn [orb] in H. destruct (t =? "LineOfSight")%string; [injection H as H; rewrite <- H in HK; destruct HK; discriminate|].
    destruct (String.eqb_spec t "SOAP") as [Et|_]; [rewrite Et; try rewrite Et in H; cbn in H; injection H as <-; right; cbn; auto|].
    destruct (String.eqb_spec t "SOAPSubset") as [Et|_]; [rewrite Et; try rewrite Et in H; cbn in H; injection H as <-; right; cbn; auto|].
    cbn [orb] in H. destruct ((t =? "FOF") || (t =? "FOFSubset"))%string%bool;
      [injection H as H; rewrite <- H in HK; destruct HK; discriminate|discriminate].
  - cbn in H. injection H as <-. left. split; [reflexivity|]. cbn. intros [|[|[|[|[]]]]]; discriminate.
Qed.

(** Other files are refused, whatever they contain. *)
Theorem C90_refused :
  forall (md : meta) (pad : padding) (cg : cells_group),
  (md_kind md = KLineOfSight \/ md_kind md = KFOF -> new_object md pad cg = Err NotImplementedErr) /\
  (md_kind md = KSnapshot \/ md_kind md = KSOAP -> md_partial md = true ->
   new_object md pad cg = Err InvalidSnapshot).
Proof.
  intros md pad cg. split.
  - intros [E|E]; unfold new_object; now rewrite E.
  - intros [E|E] HP; unfold new_object; rewrite E, HP; reflexivity.
Qed.

(** * Histories *)

(** Every call by name is a call by number. *)
Theorem C90_every_call :
  forall (md : meta) (cs : list call), exists ops, Forall2 (same_call md) cs ops.
Proof.
  intros md cs. induction cs as [|c cs [ops IH]]; [now exists []|].
  assert (E : exists op, same_call md c op).
  { destruct c as [region union|g q lower upper|i|l| |]; [eexists; constructor| |eexists; constructor..].
    destruct (in_dec string_dec g (names md)) as [Hi|Hn].
    - assert (U : exists i, uses_mask md g i).
      { unfold uses_mask. destruct (md_kind md); try (exists 0%nat; now split); now apply In_nth. }
      destruct U as [i U]. eexists. now apply (SameProperty _ _ _ i).
    - eexists. now apply (SameUnknown _ _ _ 0%nat). }
  destruct E as [op E]. exists (op :: ops). now constructor.
Qed.

Theorem C90_histories :
  forall (md : meta) (pad : padding) (cg : cells_group) (raw : raw_cells)
         (cs : list call) (ops : list mask_op),
  kind_ok md -> names_ok md -> md_partial md = false -> describes md pad cg raw ->
  Forall2 (same_call md) cs ops ->
  let mm := unpack_cell_metadata raw in
  let st := fst (mask_run mm ops (new_mask mm)) in
  exists o, new_object md pad cg = Ok o /\
    let o' := fst (call_run md cs o) in
    snd (call_run md cs o) = snd (mask_run mm ops (new_mask mm)) /\
    mo_constrained o' = ms_constrained st /\
    forall g i, uses_mask md g i ->
      exists v n, mask_getattr md o' g = Ok v /\
                  mask_getattr md o' (g ++ "_size") = Ok (VSize n) /\
                  mask_value (ms_masks st) i v n.
Proof.
  intros md pad cg raw cs ops HK HN HP HD HF mm st.
  destruct (NoDup_kn md HN (kind_cases _ HK)) as [ND NS].
  destruct (new_object_sim md pad cg raw HK ND HD NS HP) as (o & Eo & HS).
  destruct (run_sim md mm HK ND NS cs ops o (new_mask mm) HS HF) as [E1 E2].
  exists o. split; [exact Eo|]. split; [exact E1|]. split; [apply E2|].
  intros g i HU. exact (getattr_sim md mm _ _ g i HK HN E2 HU).
Qed.

(** The tables of counts and offsets of the masked cells have the names of the masks. *)
Theorem C90_tables :
  forall (md : meta) (pad : padding) (cg : cells_group) (raw : raw_cells)
         (cs : list call) (ops : list mask_op) (o : mobj),
  kind_ok md -> names_ok md -> md_partial md = false -> describes md pad cg raw ->
  Forall2 (same_call md) cs ops -> new_object md pad cg = Ok o ->
  let mm := unpack_cell_metadata raw in
  let m := ms_masks (fst (mask_run mm ops (new_mask mm))) in
  match masked_tables (fst (call_run md cs o)) with
  | Ok d =>
      (forall k, In k (map fst d) <-> exists i h n, nth_mask md i h k n) /\
      forall i h k n, nth_mask md i h k n ->
        exists key v size x t, nth_error (mm_keys mm) i = Some key /\ mask_value m i v size /\
          value_input v = Some x /\ masked_counts_offsets (key_cells key) x = Ok t /\ finds k d t
  | Err e =>
      exists i key v size x, nth_error (mm_keys mm) i = Some key /\ mask_value m i v size /\
          value_input v = Some x /\ masked_counts_offsets (key_cells key) x = Err e
  end.
Proof.
  intros md pad cg raw cs ops o HK HN HP HD HF Eo mm m.
  destruct (NoDup_kn md HN (kind_cases _ HK)) as [ND NS].
  destruct (new_object_sim md pad cg raw HK ND HD NS HP) as (o2 & Eo2 & HS).
  assert (o2 = o) by congruence. subst o2.
  destruct (run_sim md mm HK ND NS cs ops o (new_mask mm) HS HF) as [_ E2].
  rewrite (tables_sim md mm _ _ ND E2). fold m.
  assert (LK : length (mm_keys mm) = length (kn md)).
  { pose proof (agrees_length _ _ _ (s_counts _ _ _ (sim_static _ _ _ _ E2))) as L. now rewrite map_length in L. }
  assert (One : forall i key, nth_error (mm_keys mm) i = Some key ->
     exists v size x, mask_value m i v size /\ value_input v = Some x /\
                      one_table m i key = masked_counts_offsets (key_cells key) x).
  { intros i key Hk. destruct (nth_some_of_length _ (kn md) _ _ (eq_sym LK) Hk) as [k Hk2].
    pose proof (sim_masks _ _ _ _ E2) as HM. unfold one_table, mask_value, mask_data. fold m in HM.
    unfold same_masks in HM. destruct m as [l|l]; destruct HM as (_ & HM & _);
      pose proof (agrees_map_length _ _ _ _ _ HM) as L;
      destruct (nth_some_of_length (kn md) l i k L Hk2) as [[y s] Hy]; rewrite Hy.
    - exists (VRanges y), s, (inl y). cbn. repeat split. now exists y.
    - exists (VBools y), s, (inr y). cbn. repeat split. now exists y. }
  destruct (all_ok (key_tables mm m)) as [l|e] eqn:EA; cbn [bind].
  - apply all_ok_spec in EA.
    assert (LL : length l = length (kn md)).
    { rewrite <- LK, <- (key_tables_length mm m), EA. now rewrite map_length. }
    split.
    + intros k. rewrite map_fst_combine by exact LL. split.
      * intros Hi. apply In_nth in Hi. destruct Hi as [i Hi]. destruct (kn_nth_mask md i k HK Hi) as (h & n & HM).
        now exists i, h, n.
      * intros (i & h & n & HM). apply nth_mask_kn in HM; [|exact HK]. now apply nth_error_In with i.
    + intros i h k n HM. apply nth_mask_kn in HM; [|exact HK].
      destruct (nth_some_of_length _ (mm_keys mm) _ _ LK HM) as [key Hkey].
      destruct (One i key Hkey) as (v & size & x & V1 & V2 & V3).
      pose proof (key_tables_nth mm m i key Hkey) as T. rewrite EA, nth_error_map in T.
      destruct (nth_error l i) as [t|] eqn:Et; [|discriminate]. cbn in T. injection T as T.
      exists key, v, size, x, t. repeat split; auto; [congruence|].
      apply dget_finds. now apply (agrees_combine (kn md) l ND LL) with i.
  - assert (Hi : exists i, nth_error (key_tables mm m) i = Some (Err e)).
    { revert EA. generalize (key_tables mm m) as rs. clear. induction rs as [|[a|e'] rs IH]; cbn; [discriminate| |].
      - destruct (all_ok rs); cbn; [discriminate|]. intros [= ->]. destruct (IH eq_refl) as [i Hi]. now exists (S i).
      - intros [= ->]. now exists 0%nat. }
    destruct Hi as [i Hi].
    destruct (nth_some_of_length _ (mm_keys mm) _ _ (eq_sym (key_tables_length mm m)) Hi) as [key Hkey].
    destruct (One i key Hkey) as (v & size & x & V1 & V2 & V3).
    rewrite (key_tables_nth mm m i key Hkey) in Hi. injection Hi as Hi.
    exists i, key, v, size, x. repeat split; auto. congruence.
Qed.

(** A property constraint on group [g]: the rows seen through the name of any group [h].  In
    a snapshot only [g] changes; in a SOAP catalogue all groups change together. *)
Theorem C90_property_rows :
  forall (md : meta) (pad : padding) (cg : cells_group) (raw : raw_cells)
         (cs : list call) (ops : list mask_op) (o : mobj) (g h q : string) (i j : nat)
         (vals : list Q) (lower upper : Q) (v : mvalue),
  kind_ok md -> names_ok md -> md_partial md = false -> describes md pad cg raw -> wf_raw raw ->
  Forall2 (same_call md) cs ops -> Forall (ok_op (unpack_cell_metadata raw)) ops ->
  new_object md pad cg = Ok o ->
  uses_mask md g i -> uses_mask md h j -> md_fields md g q = Some vals ->
  (forall rk, nth_error (rc_keys raw) i = Some rk -> zlen vals = rk_total rk) ->
  let o1 := fst (call_run md cs o) in
  mask_getattr md o1 h = Ok v ->
  exists o2 v', call_step md (CallProperty g q lower upper) o1 = (o2, None) /\
    mask_getattr md o2 h = Ok v' /\
    forall row, In row (value_rows v') <->
      In row (value_rows v) /\
      (i = j -> exists x, nth_error vals (Z.to_nat row) = Some x /\ (lower < x)%Q /\ (x <= upper)%Q).
Proof.
  intros md pad cg raw cs ops o g h q i j vals lower upper v HK HN HP HD HW HF HO Eo HUg HUh Hq Hlen o1 Hv.
  set (mm := unpack_cell_metadata raw) in *.
  destruct (NoDup_kn md HN (kind_cases _ HK)) as [ND NS].
  destruct (new_object_sim md pad cg raw HK ND HD NS HP) as (o2 & Eo2 & HS).
  assert (o2 = o) by congruence. subst o2. fold mm in HS.
  destruct (run_sim md mm HK ND NS cs ops o (new_mask mm) HS HF) as [_ E2]. fold o1 in E2.
  set (st := fst (mask_run mm ops (new_mask mm))) in *.
  assert (R : reachable mm st) by (exists ops; now split).
  assert (W : wf_meta mm) by now apply unpack_wf.
  pose proof (SameProperty md g q i lower upper HUg) as SC. rewrite Hq in SC.
  pose proof (call_sim md mm o1 st _ _ HK ND NS E2 SC) as [EC SS].
  assert (Li : (i < length (mm_keys mm))%nat).
  { pose proof (agrees_length _ _ _ (s_counts _ _ _ (sim_static _ _ _ _ E2))) as L. rewrite map_length in L.
    rewrite L. destruct (group_mapping_get md g i HK HUg) as (k & _ & E). apply nth_error_Some. congruence. }
  assert (OK : ok_op mm (OpProperty i (Some vals) lower upper)).
  { intros mk Hmk. cbn [mm unpack_cell_metadata mm_keys] in Hmk. rewrite nth_error_map in Hmk.
    destruct (nth_error (rc_keys raw) i) as [rk|] eqn:Er; [|discriminate]. cbn in Hmk. injection Hmk as <-.
    cbn [key_total]. now apply Hlen. }
  pose proof (C13_property_always_allowed mm st i vals lower upper W R Li) as NE.
  cbn [mask_step] in EC, SS. rewrite NE in EC.
  destruct (constrain_property mm i (Some vals) lower upper st) as [st' e'] eqn:EP. cbn in NE. subst e'.
  cbn [fst] in SS.
  destruct (C14_property_exact mm st st' i vals lower upper W R OK EP) as [P1 P2].
  destruct (call_step md (CallProperty g q lower upper) o1) as [o2 e] eqn:ES. cbn in EC, SS. subst e.
  destruct (getattr_sim md mm o1 st h j HK HN E2 HUh) as (v1 & n1 & G1 & _ & M1).
  assert (v1 = v) by congruence. subst v1.
  destruct (getattr_sim md mm o2 st' h j HK HN SS HUh) as (v' & n' & G2 & _ & M2).
  exists o2, v'. split; [reflexivity|]. split; [exact G2|].
  assert (V : forall s w n, mask_value (ms_masks s) j w n -> forall row, In row (value_rows w) <-> selected s j row).
  { clear. intros s w n. unfold mask_value, selected, masked_rows. destruct (ms_masks s) as [l|l];
      intros (x & -> & ->) row; reflexivity. }
  intros row. rewrite (V _ _ _ M2), (V _ _ _ M1). destruct (Nat.eq_dec i j) as [<-|N].
  - rewrite P1. split; intros [A B]; split; auto.
  - rewrite P2 by auto. split; [|tauto]. intros A. split; [exact A|]. intros E. contradiction.
Qed.

(** * Names that are not there *)

Theorem C90_unknown_name :
  forall (md : meta) (o : mobj) (name : string),
  ~ In name (names md) -> (forall g, In g (names md) -> name <> (g ++ "_size")%string) ->
  mask_getattr md o name = Err AttributeError.
Proof.
  intros md o name H1 H2. unfold mask_getattr. rewrite merged_mapping.
  destruct (dget name (group_size_mapping md)) as [v|] eqn:E.
  - exfalso. assert (Hi : In name (map fst (group_size_mapping md))) by (apply in_dict_keys; now exists v).
    apply size_mapping_keys in Hi. destruct Hi as (g & Hg & ->). now apply (H2 g Hg).
  - now rewrite group_mapping_none.
Qed.

Theorem C90_unknown_group :
  forall (md : meta) (pad : padding) (cg : cells_group) (raw : raw_cells)
         (cs : list call) (o : mobj) (g q : string) (lower upper : Q),
  kind_ok md -> names_ok md -> md_partial md = false -> describes md pad cg raw ->
  new_object md pad cg = Ok o -> ~ In g (names md) ->
  snd (call_step md (CallProperty g q lower upper) (fst (call_run md cs o))) = Some KeyError.
Proof.
  intros md pad cg raw cs o g q lower upper HK HN HP HD Eo Hg.
  destruct (C90_every_call md cs) as [ops HF].
  set (mm := unpack_cell_metadata raw) in *.
  destruct (NoDup_kn md HN (kind_cases _ HK)) as [ND NS].
  destruct (new_object_sim md pad cg raw HK ND HD NS HP) as (o2 & Eo2 & HS).
  assert (o2 = o) by congruence. subst o2. fold mm in HS.
  destruct (run_sim md mm HK ND NS cs ops o (new_mask mm) HS HF) as [_ E2].
  set (o1 := fst (call_run md cs o)) in *. clearbody o1. cbn [call_step]. unfold property.
  destruct (to_bool_sim md mm o1 _ (kind_cases _ HK) ND NS E2) as (o3 & -> & H1). cbn [next fine].
  unfold entry. rewrite group_mapping_none by exact Hg. reflexivity.
Qed.

Lemma read_tables_missing md table h :
  (exists i k n, nth_mask md i h k n) -> lacks h table -> kind_ok md -> read_tables md table = Err KeyError.
Proof.
  intros (i & k & n & HM) HL HK. unfold read_tables. unfold nth_mask in HM.
  destruct (kind_cases _ HK) as [E|E]; rewrite E in *; cbn [shared_cell_counts].
  - destruct HM as [HM _]. apply nth_error_In in HM. revert HM. generalize (md_groups md).
    assert (G : forall gs e, fold_left (fun acc g => do d <- acc; do v <- entry (fst g) table; Ok (dset (snd g) v d))
                gs (Err (A := dict (list Z)) e) = Err e) by (induction gs; intros; cbn; auto).
    assert (F : forall gs d, In (h, k) gs ->
       fold_left (fun acc g => do d <- acc; do v <- entry (fst g) table; Ok (dset (snd g) v d)) gs (Ok d) = Err KeyError).
    { induction gs as [|[h' k'] gs IH]; intros d Hi; [destruct Hi|]. cbn [fold_left bind fst snd].
      unfold entry at 2. destruct (dget h' table) eqn:Ed; cbn [bind]; [|apply G].
      apply IH. destruct Hi as [[= -> ->]|Hi]; [|exact Hi]. apply dget_none in HL. congruence. }
    intros gs Hi. now apply F.
  - destruct HM as (_ & -> & _). unfold entry. apply dget_none in HL. now rewrite HL.
Qed.

Lemma read_tables_error md table e : read_tables md table = Err e -> e = KeyError.
Proof.
  unfold read_tables. destruct (shared_cell_counts _).
  - unfold entry. destruct (dget s table); [discriminate|]. now intros [= <-].
  - assert (F : forall gs d, fold_left (fun acc g => do d <- acc; do v <- entry (fst g) table; Ok (dset (snd g) v d)) gs d
                  = Err e -> (exists e', d = Err e' /\ e' = e) \/ e = KeyError).
    { induction gs as [|[h' k'] gs IH]; intros d H; cbn [fold_left] in H; [left; now exists e|].
      apply IH in H. destruct H as [(e' & H & ->)|H]; [|now right].
      destruct d as [d|e']; cbn [bind] in H; [|left; exists e'; split; [reflexivity|congruence]].
      unfold entry in H. destruct (dget _ table); [discriminate|]. right. cbn in H. congruence. }
    intros H. apply F in H. destruct H as [(e' & H & _)|H]; [discriminate|exact H].
Qed.

Theorem C90_missing_table :
  forall (md : meta) (pad : padding) (cg : cells_group),
  kind_ok md -> md_partial md = false -> table_missing md cg -> new_object md pad cg = Err KeyError.
Proof.
  intros md pad cg HK HP HT. unfold new_object. rewrite HP.
  assert (V : masking_valid (md_kind md) = true) by (destruct (kind_cases _ HK) as [->| ->]; reflexivity).
  rewrite V. cbn [negb]. assert (U : unpack md pad cg = Err KeyError); [|now rewrite U].
  unfold unpack. destruct HT as [[E1 E2]|(i & h & k & n & HM & HT)]; [now rewrite E1, E2|].
  destruct (match cg_offsets_in_file cg with Some d => Ok d | None => _ end) as [table|e] eqn:ET; cbn [bind].
  2: { destruct (cg_offsets_in_file cg); [discriminate|]. destruct (cg_offsets cg); [discriminate|]. congruence. }
  destruct HT as [HL|(offs & HO & HL)].
  - destruct (read_tables md table) as [d|e] eqn:E; cbn [bind].
    + rewrite (read_tables_missing md (cg_counts cg) h); auto. now exists i, k, n.
    + apply read_tables_error in E. now subst.
  - assert (offs = table).
    { destruct HO as [E|[E1 E2]]; [rewrite E in ET|rewrite E1, E2 in ET]; congruence. }
    subst. rewrite (read_tables_missing md table h); auto. now exists i, k, n.
Qed.

(** A file with bounding boxes must have them for every group. *)
Lemma read_extent_missing md table f centres h k :
  In (h, k) (md_groups md) -> lacks h table -> read_extent md table f centres = Err KeyError.
Proof.
  intros Hi HL. unfold read_extent.
  set (F := fun (acc : res (dict (list vec))) (g : string * string) => do d <- acc; do v <- entry (fst g) table; Ok (dset (snd g)
               (map (fun cv => f (fst cv) (snd cv)) (combine centres v)) d)).
  assert (G : forall gs e, fold_left F gs (Err e) = Err e) by (induction gs; intros; cbn; auto).
  assert (T : forall gs d, In (h, k) gs -> fold_left F gs (Ok d) = Err KeyError); [|now apply T].
  induction gs as [|[h' k'] gs IH]; intros d Hg; [destruct Hg|]. cbn [fold_left]. unfold F at 2.
  cbn [bind fst snd]. unfold entry at 1. destruct (dget h' table) eqn:Ed; cbn [bind]; [|apply G].
  apply IH. destruct Hg as [[= -> ->]|Hg]; [|exact Hg]. apply dget_none in HL. congruence.
Qed.

Lemma read_extent_error md table f centres e : read_extent md table f centres = Err e -> e = KeyError.
Proof.
  unfold read_extent.
  set (F := fun (acc : res (dict (list vec))) (g : string * string) => do d <- acc; do v <- entry (fst g) table; Ok (dset (snd g)
               (map (fun cv => f (fst cv) (snd cv)) (combine centres v)) d)).
  assert (T : forall gs d, fold_left F gs d = Err e -> (exists e', d = Err e' /\ e' = e) \/ e = KeyError).
  { induction gs as [|[h' k'] gs IH]; intros d H; cbn [fold_left] in H; [left; now exists e|].
    apply IH in H. destruct H as [(e' & H & ->)|H]; [|now right]. unfold F in H.
    destruct d as [d|e']; cbn [bind] in H; [|left; exists e'; split; [reflexivity|congruence]].
    unfold entry in H. destruct (dget _ table); [discriminate|]. right. cbn in H. congruence. }
  intros H. apply T in H. destruct H as [(e' & H & _)|H]; [discriminate|exact H].
Qed.

Theorem C90_missing_box :
  forall (md : meta) (pad : padding) (cg : cells_group),
  kind_ok md -> md_partial md = false -> box_missing md cg -> new_object md pad cg = Err KeyError.
Proof.
  intros md pad cg HK HP (mn & mx & h & k & E1 & E2 & Hi & HL). unfold new_object. rewrite HP.
  assert (V : masking_valid (md_kind md) = true) by (destruct (kind_cases _ HK) as [->| ->]; reflexivity).
  rewrite V. cbn [negb]. assert (U : unpack md pad cg = Err KeyError); [|now rewrite U].
  unfold unpack.
  destruct (match cg_offsets_in_file cg with Some d => Ok d | None => _ end) as [table|e] eqn:ET; cbn [bind].
  2: { destruct (cg_offsets_in_file cg); [discriminate|]. destruct (cg_offsets cg); [discriminate|]. congruence. }
  destruct (read_tables md table) as [d|e] eqn:R1; cbn [bind]; [|apply read_tables_error in R1; now subst].
  destruct (read_tables md (cg_counts cg)) as [d'|e] eqn:R2; cbn [bind]; [|apply read_tables_error in R2; now subst].
  assert (X : read_extents md pad cg = Err KeyError); [|now rewrite X].
  unfold read_extents. rewrite E1, E2. destruct HL as [HL|HL].
  - rewrite (read_extent_missing md mn _ _ h k Hi HL). reflexivity.
  - destruct (read_extent md mn (min_of (cg_size cg)) (cg_centres cg)) as [mins|e] eqn:R3; cbn [bind];
      [|apply read_extent_error in R3; now subst].
    rewrite (read_extent_missing md mx _ _ h k Hi HL). reflexivity.
Qed.

(** * SOAP catalogues with bounding boxes

    A SOAP catalogue has one cell table for all groups, and its mask looks for one entry
    "shared" in the bounding boxes; but the boxes in the file, if there are any, are read by
    group.  The mask can then be made, and no region can be selected with it. *)

Lemma read_extent_keys md table f centres d k :
  read_extent md table f centres = Ok d -> In k (map fst d) -> In k (names md).
Proof.
  unfold read_extent. change (names md) with (map snd (md_groups md)).
  set (F := fun (acc : res (dict (list vec))) (g : string * string) => do d <- acc; do v <- entry (fst g) table; Ok (dset (snd g)
               (map (fun cv => f (fst cv) (snd cv)) (combine centres v)) d)).
  assert (G : forall gs e, fold_left F gs (Err e) = Err e) by (induction gs; intros; cbn; auto).
  assert (T : forall gs d0 d, fold_left F gs (Ok d0) = Ok d -> In k (map fst d) ->
     In k (map fst d0) \/ In k (map snd gs)).
  { induction gs as [|[h' k'] gs IH]; intros d0 d1 H Hi; cbn [fold_left] in H.
    - injection H as <-. now left.
    - unfold F at 2 in H. cbn [bind fst snd] in H. unfold entry at 1 in H.
      destruct (dget h' table) as [v|] eqn:Ed; cbn [bind] in H; [|rewrite G in H; discriminate].
      destruct (IH _ _ H Hi) as [Hk|Hk]; [|right; now right].
      apply in_dict_keys in Hk. destruct Hk as [w Hw]. rewrite dget_dset in Hw.
      destruct (String.eqb_spec k k') as [->|_]; [right; now left|]. left. apply in_dict_keys. now exists w. }
  intros H Hi. now destruct (T _ [] d H Hi).
Qed.

Lemma for_each_static {X} (f : X -> mobj -> step) (P : mobj -> Prop) xs o :
  (forall x o, P o -> P (fst (f x o))) -> P o -> P (fst (for_each xs f o)).
Proof.
  intros H. revert o. induction xs as [|x xs IH]; intros o Ho; cbn; [exact Ho|].
  pose proof (H x o Ho) as H1. destruct (f x o) as [o1 [e|]]; cbn in *; [exact H1|now apply IH].
Qed.

Lemma update_mask_max d x o : mo_max o = d -> mo_max (fst (update_mask x o)) = d.
Proof.
  intros E. unfold update_mask, get. destruct (entry _ (mo_counts o)); [|exact E].
  destruct (entry _ (mo_cell_mask o)); [|exact E]. destruct (entry _ (mo_offsets o)); [|exact E].
  destruct (mo_range_mask o); [exact E|]. destruct (attribute _ _) as [[]|]; exact E.
Qed.

Lemma new_object_boxes md pad cg o : new_object md pad cg = Ok o -> has_extents cg = true ->
  forall k, In k (map fst (mo_max o)) -> In k (names md).
Proof.
  unfold new_object. destruct (negb _); [discriminate|]. destruct (md_partial md); [discriminate|].
  destruct (unpack md pad cg) as [o0|] eqn:EU; cbn [bind]; [|discriminate]. intros H HX k Hk.
  destruct (update_masks md (set_cell_mask (full_mask md o0) o0)) as [o1 [e|]] eqn:EM; [discriminate|].
  injection H as <-. assert (EX : mo_max o1 = mo_max o0).
  { change o1 with (fst (o1, @None pyerr)). rewrite <- EM. unfold update_masks.
    apply (for_each_static _ (fun o => mo_max o = mo_max o0)); [|reflexivity].
    intros x o. apply update_mask_max. }
  rewrite EX in Hk. clear EM EX o1. unfold unpack in EU.
  destruct (match cg_offsets_in_file cg with Some d => Ok d | None => _ end) as [table|]; cbn [bind] in EU; [|discriminate].
  destruct (read_tables md table); cbn [bind] in EU; [|discriminate].
  destruct (read_tables md (cg_counts cg)); cbn [bind] in EU; [|discriminate].
  destruct (read_extents md pad cg) as [[mins maxs]|] eqn:ER; cbn [bind] in EU; [|discriminate].
  rewrite HX in EU. cbn [bind] in EU. injection EU as <-. cbn [mo_max snd] in Hk.
  unfold read_extents in ER. unfold has_extents in HX. destruct (cg_min cg); [|discriminate].
  destruct (cg_max cg); [|discriminate].
  destruct (read_extent md _ (min_of _) _); cbn [bind] in ER; [|discriminate].
  destruct (read_extent md _ (max_of _) _) as [m|] eqn:E2; cbn [bind] in ER; [|discriminate].
  injection ER as _ <-. unfold sort_table in Hk. rewrite map_map in Hk. cbn [fst] in Hk.
  now apply (read_extent_keys _ _ _ _ _ _ E2).
Qed.

Lemma bounded_interval box r lo up : (0 < box)%Q -> bounded_axis box r -> sanitize_axis box r = Some (lo, up) ->
  axis_interval box lo up <> None.
Proof.
  intros Hb HB HS. unfold axis_interval.
  assert (A : qltb box (Qabs (up - lo)) = false).
  { unfold qltb. apply negb_false_iff, Qle_bool_iff. destruct r as [l|]; cbn in HB, HS.
    - destruct HB as (lo' & up' & -> & H1 & H2). injection HS as <- <-. apply Qabs_case; intros _; lra.
    - injection HS as <- <-. apply Qabs_case; intros _; lra. }
  rewrite A. destruct (qltb up lo); [|discriminate]. destruct (qltb (box / 2) lo); [discriminate|].
  destruct (qltb up (box / 2)); discriminate.
Qed.

Theorem C90_soap_boxes_refuted :
  (exists md cg o, md_kind md = KSOAP /\ md_partial md = false /\ kind_ok md /\ names_ok md /\
     new_object md PadTrue cg = Ok o) /\
  forall (md : meta) (pad : padding) (cg : cells_group) (o : mobj)
         (region : list (option (list Q))) (union : bool),
  md_kind md = KSOAP -> kind_ok md -> (forall a, (0 < md_box md a)%Q) -> ~ In "shared"%string (names md) ->
  cg_min cg <> None -> cg_max cg <> None -> new_object md pad cg = Ok o ->
  well_formed_region region -> region_in_window (md_box md) region ->
  bounded_somewhere (md_box md) region ->
  spatial md region union o = (o, Some KeyError).
Proof.
  split.
  { exists (mk_meta KSOAP "SOAP" false [("SO/200_crit", "spherical_overdensity_200_crit")]%string
             [("subhalos"%string, 2)] (fun _ _ => None) (fun _ => 1%Q)).
    exists (mk_cells_group [fun _ => (1 # 2)%Q] (fun _ => 1%Q) [("Subhalos"%string, [2])] (Some [("Subhalos"%string, [0])])
              None (Some [("SO/200_crit"%string, [fun _ => 0%Q])]) (Some [("SO/200_crit"%string, [fun _ => 1%Q])])).
    eexists. split; [reflexivity|]. split; [reflexivity|]. split; [right; cbn; auto|]. split.
    - split; [now left|]. intros a b [<-|[]] [<-|[]]. discriminate.
    - vm_compute. reflexivity. }
  intros md pad cg o region union EK HK Hb HS N1 N2 Eo HW HR HB.
  assert (HX : has_extents cg = true) by (unfold has_extents; destruct (cg_min cg), (cg_max cg); congruence).
  pose proof (new_object_boxes md pad cg o Eo HX) as HM.
  assert (D : entry "shared"%string (mo_max o) = Err KeyError).
  { unfold entry. destruct (dget "shared"%string (mo_max o)) as [v|] eqn:E; [|reflexivity].
    exfalso. apply HS, HM, in_dict_keys. now exists v. }
  assert (HC : mo_constrained o = None).
  { clear - Eo. revert Eo. unfold new_object. destruct (negb _); [discriminate|]. destruct (md_partial md); [discriminate|].
    destruct (unpack md pad cg) as [o0|] eqn:EU; cbn [bind]; [|discriminate].
    destruct (update_masks md (set_cell_mask (full_mask md o0) o0)) as [o1 [e|]] eqn:EM; [discriminate|].
    intros [= <-]. change o1 with (fst (o1, @None pyerr)). rewrite <- EM. unfold update_masks.
    apply (for_each_static _ (fun o => mo_constrained o = None)).
    - intros x o E. unfold update_mask, get. destruct (entry _ (mo_counts o)); [|exact E].
      destruct (entry _ (mo_cell_mask o)); [|exact E]. destruct (entry _ (mo_offsets o)); [|exact E].
      destruct (mo_range_mask o); [exact E|]. destruct (attribute _ _) as [[]|]; exact E.
    - unfold unpack in EU.
      destruct (match cg_offsets_in_file cg with Some d => Ok d | None => _ end) as [table|]; cbn [bind] in EU; [|discriminate].
      destruct (read_tables md table); cbn [bind] in EU; [|discriminate].
      destruct (read_tables md (cg_counts cg)); cbn [bind] in EU; [|discriminate].
      destruct (read_extents md pad cg) as [[mins maxs]|] eqn:ER; cbn [bind] in EU; [|discriminate].
      destruct (if has_extents cg then _ else _) in EU; cbn [bind] in EU; [|discriminate].
      destruct (if has_extents cg then _ else _) in EU; cbn [bind] in EU; [|discriminate].
      injection EU as <-. reflexivity. }
  unfold spatial. destruct (sanitize_region (md_box md) region) as [restrict|e] eqn:ER.
  2: { apply (sanitize_region_wf (md_box md)) in HW. destruct HW as [r HW]. congruence. }
  cbn [get]. rewrite HC. destruct HB as (rx & ry & rz & -> & HB).
  destruct (sanitize_region_ok _ _ _ ER) as (rx' & ry' & rz' & E & S1 & S2 & S3).
  injection E as <- <- <-. cbn in HR. destruct HR as (W1 & W2 & W3).
  assert (MN : mask_names md = ["shared"%string]) by (rewrite mask_names_kn by exact HK; unfold kn; now rewrite EK).
  assert (Ax : forall a r cm, sanitize_axis (md_box md a) r = Some (restrict a) -> axis_in_window (md_box md a) r ->
     (restrict_axis md o restrict cm a = Ok cm /\ ~ bounded_axis (md_box md a) r) \/
     restrict_axis md o restrict cm a = Err KeyError).
  { intros a r cm HSan HWin. unfold restrict_axis. destruct (restrict a) as [lo up].
    assert (OW : out_of_window (md_box md a) lo up = false).
    { unfold out_of_window, qltb. specialize (Hb a).
      assert (Z : (- md_box md a / 2 <= lo /\ - md_box md a / 2 <= up /\ lo <= 3 * md_box md a / 2 /\ up <= 3 * md_box md a / 2)%Q).
      { destruct r as [l|]; cbn in HSan, HWin.
        - destruct l as [|x [|y [|? ?]]]; try discriminate. injection HSan as <- <-.
          inversion HWin as [|? ? H1 H2]; subst. inversion H2 as [|? ? H3 H4]; subst. tauto.
        - injection HSan as <- <-. repeat split; qlra. }
      destruct Z as (Z1 & Z2 & Z3 & Z4). apply Qle_bool_iff in Z1, Z2, Z3, Z4. now rewrite Z1, Z2, Z3, Z4. }
    rewrite OW. destruct (axis_interval (md_box md a) lo up) as [[l2 u2]|] eqn:EI.
    - right. rewrite MN. cbn [fold_left bind]. unfold restrict_group. rewrite D. reflexivity.
    - left. split; [reflexivity|]. intros HBd. now apply (bounded_interval _ _ _ _ (Hb a) HBd HSan). }
  assert (CM : cell_mask_for md o restrict = Err KeyError).
  { unfold cell_mask_for, axes. cbn [fold_left bind].
    destruct (Ax AX rx (full_mask md o) S1 W1) as [[-> B1]| ->]; [|reflexivity]. cbn [bind].
    destruct (Ax AY ry (full_mask md o) S2 W2) as [[-> B2]| ->]; [|reflexivity]. cbn [bind].
    destruct (Ax AZ rz (full_mask md o) S3 W3) as [[-> B3]| ->]; [|reflexivity]. tauto. }
  rewrite CM. reflexivity.
Qed.

(** * Examples *)

(** The names of the particle types can be told apart. *)
Example C90_particle_names :
  forall md, names md = ["gas"; "dark_matter"; "boundary"; "sinks"; "stars"; "black_holes"; "neutrinos"; "sidm"]%string ->
  names_ok md.
Proof.
  intros md E. unfold names_ok. rewrite E. split.
  - right. repeat constructor; cbn; intuition discriminate.
  - intros a b Ha Hb. cbn in Ha, Hb.
    repeat (destruct Ha as [<-|Ha]; [repeat (destruct Hb as [<-|Hb]; [discriminate|]); destruct Hb|]). destruct Ha.
Qed.

(** The snapshot of MaskTheorems with its names; the right-hand cell comes first in the file. *)
Definition ex_md : meta :=
  mk_meta KSnapshot "FullVolume" false [("PartType0", "gas"); ("PartType1", "dark_matter")]%string
    [("gas", 5); ("dark_matter", 6)]%string
    (fun g q => if (g =? "dark_matter")%string then Some [1; 2; 3; 4; 5; 6]%Q else None)
    (v3 2 2 2).
Definition ex_cg : cells_group :=
  mk_cells_group [v3 (3 # 2) 1 1; v3 (1 # 2) 1 1] (v3 1 2 2)
    [("PartType0", [2; 3]); ("PartType1", [2; 4])]%string
    (Some [("PartType0", [3; 0]); ("PartType1", [4; 0])]%string) None None None.
Definition ex_raw : raw_cells :=
  mk_raw_cells [v3 (3 # 2) 1 1; v3 (1 # 2) 1 1] (v3 1 2 2) 0 (v3 2 2 2) false
    [mk_raw_key [3; 0] [2; 3] None 5; mk_raw_key [4; 0] [2; 4] None 6].

Lemma ex_finds {A} k (d : dict A) v : dget k d = Some v -> finds k d v.
Proof. apply dget_finds. Qed.

Example ex_names_describes :
  kind_ok ex_md /\ names_ok ex_md /\ md_partial ex_md = false /\ describes ex_md PadFalse ex_cg ex_raw.
Proof.
  split; [left; split; [reflexivity|]; cbn; intuition discriminate|]. split.
  { split.
    - right. repeat constructor; cbn; intuition discriminate.
    - intros a b [<-|[<-|[]]] [<-|[<-|[]]]; discriminate. }
  split; [reflexivity|]. repeat split; try discriminate.
  - eexists. split; [left; reflexivity|]. intros i h k n [H ->].
    destruct i as [|[|[|i]]]; cbn in H; try discriminate; injection H as <- <-;
      (eexists; split; [reflexivity|]); repeat split; now apply ex_finds.
  - intros i rk H. destruct i as [|[|[|i]]]; cbn in H; try discriminate; repeat eexists.
Qed.

Definition ex_calls : list call :=
  [CallSpatial [Some [0; 1 # 2]; None; None]%Q false; CallProperty "dark_matter" "masses" 2 5;
   CallProperty "stars" "masses" 3 5; CallToRanges].

Example C90_example :
  exists o, new_object ex_md PadFalse ex_cg = Ok o /\
  snd (call_run ex_md ex_calls o) = [None; None; Some KeyError; None] /\
  mask_getattr ex_md (fst (call_run ex_md ex_calls o)) "gas" = Ok (VRanges [(0, 3)]) /\
  mask_getattr ex_md (fst (call_run ex_md ex_calls o)) "dark_matter" = Ok (VRanges [(2, 4)]) /\
  mask_getattr ex_md (fst (call_run ex_md ex_calls o)) "dark_matter_size" = Ok (VSize 2) /\
  mask_getattr ex_md (fst (call_run ex_md ex_calls o)) "stars" = Err AttributeError /\
  masked_tables (fst (call_run ex_md ex_calls o))
  = Ok [("gas", ([3; 0], [0; 3])); ("dark_matter", ([2; 0], [0; 2]))]%string.
Proof. eexists. split; [reflexivity|]. repeat split; vm_compute; reflexivity. Qed.

Example C90_example_missing :
  new_object ex_md PadFalse (mk_cells_group (cg_centres ex_cg) (cg_size ex_cg) [("PartType0", [2; 3])]%string
     (cg_offsets_in_file ex_cg) None None None) = Err KeyError.
Proof. reflexivity. Qed.

Print Assumptions C90_kinds_agree.
Print Assumptions C90_refused.
Print Assumptions C90_every_call.
Print Assumptions C90_histories.
Print Assumptions C90_tables.
Print Assumptions C90_property_rows.
Print Assumptions C90_unknown_name.
Print Assumptions C90_unknown_group.
Print Assumptions C90_missing_table.
Print Assumptions C90_missing_box.
Print Assumptions C90_soap_boxes_refuted.

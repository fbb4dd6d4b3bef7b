(** Properties C22 - C24: subset files. *)
From Coq Require Import String List ZArith QArith Lia Bool Permutation Sorted.
From Verif Require Import Base BaseLemmas RangesModel RangesSpec RangesProofs SortModel SortProofs
     MaskModel MaskSpec MaskListProofs MaskProofs MaskHistProofs MaskCountProofs MaskTheorems
     ReaderModel ReaderSpec ReaderProofs SubsetModel SubsetSpec SubsetProofs.
Import ListNotations.
Open Scope Z_scope.

(** * C22 *)

(** The new file: every present type has the header count and the rows of the mask, its
    cells tile it, and the tables fit together. *)
Theorem C22_subset_holds_masked_rows :
  forall (V : Type) (argsort : list Z -> list nat) (f : sfile V) (st : mask_state) (allow : bool),
  is_argsort argsort -> wf_file f -> file_tiled f -> mask_of f st -> type_ok (f_type f) ->
  ms_constrained st <> None \/ allow = true ->
  exists f', write_subset argsort f st allow = Ok f' /\
    wf_raw (raw_of_file f') /\ file_tiled f' /\ length (f_groups f') = length (f_groups f) /\
    forall g gr, nth_error (f_groups f) g = Some gr ->
      exists gr' rows, nth_error (f_groups f') g = Some gr' /\
        (forall i, In i rows <-> present gr = true /\ selected st (key_of f g) i) /\
        StronglySorted Z.le rows /\ g_count gr' = zlen rows /\
        Forall2 (field_subset rows) (g_fields gr) (g_fields gr').
Proof.
  intros V argsort f st allow Harg Hw Ht Hm Hty Hal.
  destruct (write_subset_ok argsort f st allow Harg Hw Ht Hm Hty Hal)
    as (f' & E & _ & H1 & H2 & H3 & H4 & H5 & H6 & H7).
  exists f'. split; [assumption|]. split; [now apply (new_wf_raw f f' st)|].
  split; [now apply (new_tiled f f' st)|]. split; [assumption|].
  intros g gr Hg. destruct (H7 g gr Hg) as (gr' & Hg' & _ & _ & Hx). exists gr'.
  destruct (present gr) eqn:Hp.
  - destruct Hx as (mk & rs & Hk & Hrs & Hin & Hord & Hs & Hsel & Hcnt & _ & _ & Hfs).
    exists (indices_of rs). split; [assumption|]. split; [intros i; rewrite Hsel; tauto|].
    split; [assumption|]. split.
    + rewrite Hcnt. symmetry. apply zlen_indices_of. eapply Forall_impl; [|exact Hin].
      unfold in_bounds. cbn. intros; lia.
    + eapply Forall2_imp; [exact Hfs|]. now intros a b [Ha _].
  - destruct Hx as (Hc & Hf). exists []. split; [assumption|]. split.
    { intros i; split; [intros []|intros [C _]; discriminate]. }
    split; [constructor|]. split; [exact Hc|].
    destruct Hw as (_ & _ & _ & Hgs). apply nth_error_In in Hg.
    apply (proj1 (Forall_forall _ _) Hgs) in Hg as (Ha & _). destruct (Ha Hp) as [_ ->]. rewrite Hf. constructor.
Qed.

(** Loading the new file gives what a masked load of the original gives, for every field and
    column. *)
Theorem C22_load_equals_masked_load :
  forall (V : Type) (argsort : list Z -> list nat) (f f' : sfile V) (st : mask_state) (allow : bool)
         (g j : nat) (gr gr' : group V) (fd fd' : field V) (column : option nat),
  is_argsort argsort -> wf_file f -> file_tiled f -> mask_of f st -> type_ok (f_type f) ->
  write_subset argsort f st allow = Ok f' ->
  nth_error (f_groups f) g = Some gr -> nth_error (f_groups f') g = Some gr' ->
  nth_error (g_fields gr) j = Some fd -> nth_error (g_fields gr') j = Some fd' ->
  column_ok fd column ->
  exists out, read_field argsort (group_mask (Some st) (key_of f g)) column fd = Ok out /\
              read_field argsort None column fd' = Ok out.
Proof.
  intros V argsort f f' st allow g j gr gr' fd fd' column Harg Hw Ht Hm Hty E Hg Hg' Hj Hj' Hc.
  assert (Hal : ms_constrained st <> None \/ allow = true).
  { unfold write_subset in E. destruct (ms_constrained st); [left; discriminate|]. destruct allow; [now right|discriminate]. }
  destruct (write_subset_ok argsort f st allow Harg Hw Ht Hm Hty Hal)
    as (f2 & E2 & _ & H1 & H2 & H3 & H4 & H5 & H6 & H7).
  rewrite E in E2. injection E2 as <-.
  destruct (H7 g gr Hg) as (gr2 & Hg2 & _ & _ & Hx). rewrite Hg' in Hg2. injection Hg2 as <-.
  pose proof Hw as (_ & _ & _ & Hgs). pose proof (nth_error_In _ _ Hg) as Hgin.
  apply (proj1 (Forall_forall _ _) Hgs) in Hgin as (Habs & Hfs).
  destruct (present gr) eqn:Hp.
  2:{ destruct (Habs eq_refl) as [_ C]. rewrite C in Hj. destruct j; discriminate. }
  destruct Hx as (mk & rs & Hk & Hrs & Hin & Hord & Hs & Hsel & Hcnt & _ & _ & Hff).
  destruct (Forall2_nth _ _ _ _ _ Hff Hj) as (fd2 & Ef2 & (Hpick & H2d & Hwd) & _).
  rewrite Hj' in Ef2. injection Ef2 as <-.
  pose proof (nth_error_In _ _ Hj) as Hfin. apply (proj1 (Forall_forall _ _) Hfs) in Hfin as (Hfof & _ & Hlay).
  pose proof Hfof as (Hlen & Hwid & Hch).
  assert (Htot : key_total mk = g_count gr).
  { pose proof (group_key f g gr Hg Hp) as Hk'. rewrite Hk in Hk'. injection Hk' as ->. reflexivity. }
  destruct (read_field_masked argsort fd column rs) as (out & Eo & Ho); auto.
  { now rewrite Hlen. } { rewrite Hlen, <- Htot. assumption. } { contradiction. }
  exists out. rewrite Hrs. split; [assumption|].
  unfold read_field. rewrite (column_ok_not_bad fd' column).
  2:{ destruct column as [c|]; [|exact I]. cbn in *. rewrite H2d, Hwd. assumption. }
  f_equal. unfold shows_rows in Ho. unfold picks in Hpick.
  assert (Hsel2 : forall r, select_column fd' column r = select_column fd column r).
  { intros r. unfold select_column. now rewrite H2d. }
  clear - Ho Hpick Hsel2. revert out Ho. induction Hpick as [|i o idx rows (Hi & Hr) _ IH]; intros out Ho.
  - inversion Ho. reflexivity.
  - inversion Ho as [|? ? ? ? (_ & row & e & Hrow & -> & Hent) Ho']; subst. cbn. f_equal.
    + rewrite Hrow in Hr. injection Hr as ->. rewrite Hsel2. f_equal.
      unfold entry_of in Hent. unfold select_column. destruct column as [c|]; [|now symmetry].
      destruct (fd_2d fd); [|now symmetry]. destruct Hent as (v & Hv & ->).
      clear - Hv. revert o Hv. induction c as [|c IH]; intros [|x o] Hv; try discriminate; cbn in *.
      * now injection Hv as ->.
      * now apply IH.
    + now apply IH.
Qed.

(** A subset that keeps at least one particle of every type is again a file of the same
    kind, so that the theorems apply to it. *)
Theorem C22_subset_again :
  forall (V : Type) (argsort : list Z -> list nat) (f f' : sfile V) (st : mask_state) (allow : bool),
  is_argsort argsort -> wf_file f -> file_tiled f -> mask_of f st -> type_ok (f_type f) ->
  write_subset argsort f st allow = Ok f' ->
  (forall g gr, nth_error (f_groups f) g = Some gr -> g_fields gr <> [] -> exists i, selected st (key_of f g) i) ->
  (exists gr, In gr (f_groups f) /\ present gr = true) ->
  wf_file f' /\ file_tiled f'.
Proof.
  intros V argsort f f' st allow Harg Hw Ht Hm Hty E Hsome (grp & Hgrp & Hgrpp).
  assert (Hal : ms_constrained st <> None \/ allow = true).
  { unfold write_subset in E. destruct (ms_constrained st); [left; discriminate|]. destruct allow; [now right|discriminate]. }
  destruct (write_subset_ok argsort f st allow Harg Hw Ht Hm Hty Hal)
    as (f2 & E2 & _ & H1 & H2 & H3 & H4 & H5 & H6 & H7).
  rewrite E in E2. injection E2 as <-.
  split; [|now apply (new_tiled f f' st)].
  split; [now apply (new_wf_raw f f' st)|].
  pose proof Hw as (Hwr & Hne & Hone & Hgs). split.
  { apply In_nth_error in Hgrp as [g Hg]. pose proof (new_centres_length f f' Hw H1 g grp Hg Hgrpp) as L.
    destruct (f_centres f'); [|discriminate]. destruct (f_centres f); [congruence|discriminate]. }
  split.
  { intros Hs. rewrite H5 in Hs. destruct (Hone Hs) as (gr & Egs & Hh).
    destruct (H7 0%nat gr) as (gr' & E' & Hh' & _); [now rewrite Egs|].
    rewrite Egs in H6. destruct (f_groups f') as [|x [|y l]]; try discriminate. cbn in E'. injection E' as ->.
    exists gr'. split; [reflexivity|]. congruence. }
  apply Forall_forall. intros gr' Hin. apply In_nth_error in Hin as [g Hg'].
  destruct (old_group f f' st H6 H7 g gr' Hg') as (gr & Hg & Hgw).
  pose proof (nth_error_In _ _ Hg) as Hgin.
  apply (proj1 (Forall_forall _ _) Hgs) in Hgin as (Habs & Hfs).
  pose proof Hgw as (Hh & _ & Hx).
  destruct (present gr) eqn:Hp.
  - destruct Hx as (mk & rs & Hk & Hrs & Hin & Hord & Hs & Hsel & Hcnt & _ & _ & Hff).
    assert (Hz : zlen (indices_of rs) = total_rows rs).
    { apply zlen_indices_of. eapply Forall_impl; [|exact Hin]. unfold in_bounds. cbn. intros; lia. }
    assert (Hnz : g_fields gr <> [] -> indices_of rs <> []).
    { intros Hne2. destruct (Hsome g gr Hg Hne2) as (i & Hi). apply Hsel in Hi. intros C. rewrite C in Hi. destruct Hi. }
    split.
    + intros Hp'. unfold present in Hp', Hp. rewrite Hh in Hp'. destruct (g_has gr); [congruence|].
      assert (C : g_count gr' = 0) by (destruct (Z.eqb_spec (g_count gr') 0); [assumption|discriminate]).
      split; [assumption|]. destruct (g_fields gr) as [|fd fds]; [now inversion Hff|]. exfalso.
      apply Hnz; [discriminate|]. destruct (indices_of rs); [reflexivity|]. rewrite zlen_cons in Hz.
      pose proof (zlen_nonneg l). lia.
    + apply Forall_forall. intros fd' Hin'. apply In_nth_error in Hin' as [j Hj'].
      destruct (Forall2_nth_r _ _ _ _ _ Hff Hj') as (fd & Hj & (Hpk & Hd & Hwd) & Hl).
      pose proof (nth_error_In _ _ Hj) as Hfin. apply (proj1 (Forall_forall _ _) Hfs) in Hfin as ((F1 & F2 & F3) & F4 & F5).
      pose proof (Forall2_len _ _ _ Hpk) as Hl2.
      split; [split; [|split]|split].
      * rewrite Hcnt, <- Hz. unfold zlen. now rewrite Hl2.
      * intros H2d. rewrite Hd in H2d. specialize (F2 H2d). rewrite Hwd.
        apply Forall_forall. intros r Hr. apply In_nth_error in Hr as [n Hr].
        destruct (Forall2_nth_r _ _ _ _ _ Hpk Hr) as (i & _ & _ & Hrow).
        apply (proj1 (Forall_forall _ _) F2). eapply nth_error_In. exact Hrow.
      * intros c Hc. congruence.
      * intros C. rewrite C in Hl2. apply (f_equal (@length _)) in C. cbn in Hl2.
        apply Hnz; [intros C2; rewrite C2 in Hj; destruct j; discriminate|].
        destruct (indices_of rs); [reflexivity|discriminate].
      * congruence.
  - destruct Hx as (Hc & Hf). split; [auto|]. rewrite Hf. constructor.
Qed.

(** Without constraint nothing is written unless asked for. *)
Theorem C22_unconstrained_refused :
  forall (V : Type) (argsort : list Z -> list nat) (f : sfile V) (st : mask_state),
  ms_constrained st = None -> write_subset argsort f st false = Err ValueError.
Proof. intros V argsort f st H. unfold write_subset. now rewrite H. Qed.

(** A file with a dataset without rows cannot be subset, whatever the mask. *)
Theorem C22_empty_dataset_fails :
  forall (V : Type) (argsort : list Z -> list nat) (f f' : sfile V) (st : mask_state) (allow : bool)
         (gr : group V) (fd : field V),
  In gr (f_groups f) -> In fd (g_fields gr) -> fd_rows fd = [] ->
  write_subset argsort f st allow <> Ok f'.
Proof.
  intros V argsort f f' st allow gr fd Hgr Hfd Hr E. unfold write_subset in E.
  assert (E' : match convert_masks_to_ranges (ms_masks st) with
      | InBools _ => Err RuntimeError
      | InRanges ranges =>
          do t <- write_output_type (f_type f);
          do groups <- all_ok (map (fun mg => write_group argsort (cell_sort_of f) (fst mg) (snd mg))
                                   (assign_keys (f_groups f) (combine (mm_keys (mask_meta_of f)) ranges)));
          Ok (mk_sfile t (take_order (f_centres f) (cell_sort_of f)) (f_size f) (f_pad f) (f_box f)
                       (f_shared f) groups)
      end = Ok f') by (destruct (ms_constrained st); [|destruct allow]; [assumption|assumption|discriminate]).
  clear E. destruct (convert_masks_to_ranges (ms_masks st)) as [ranges|]; [|discriminate].
  apply bind_ok in E' as (t & _ & E). apply bind_ok in E as (groups & E & _).
  apply all_ok_err in E. apply In_nth_error in Hgr as [g Hg].
  pose proof (assign_keys_nth _ (combine (mm_keys (mask_meta_of f)) ranges) g gr Hg) as Ha.
  apply nth_error_In in Ha.
  pose proof (proj1 (Forall_forall _ _) E _ (in_map _ _ _ Ha)) as (gr' & Eg). cbn [fst snd] in Eg.
  unfold write_group in Eg. apply bind_ok in Eg as (cells & _ & Eg). apply bind_ok in Eg as (n & _ & Eg).
  apply bind_ok in Eg as (fields & Eg & _). apply all_ok_err in Eg.
  pose proof (proj1 (Forall_forall _ _) Eg _ (in_map _ _ _ Hfd)) as (fd' & Ef).
  rewrite write_field_empty in Ef by assumption. discriminate.
Qed.

(** A file of two types in two cells, in the order of the examples of masks. *)
Definition ex_file : sfile Z :=
  mk_sfile (Some "FullVolume"%string) [v3 (1#2) 1 1; v3 (3#2) 1 1] (v3 1 2 2) 0 (v3 2 2 2) false
    [ mk_group 5 (Some true) [0; 3] [3; 2] None
        [ mk_field (Chunked 2) false 1 [[10]; [11]; [12]; [13]; [14]];
          mk_field Contiguous true 2 [[0; 0]; [1; 10]; [2; 20]; [3; 30]; [4; 40]] ];
      mk_group 0 (Some false) [] [] None [];
      mk_group 3 (Some true) [0; 3] [3; 0] None [ mk_field Contiguous false 1 [[20]; [21]; [22]] ] ].

Lemma ex_file_wf : wf_file ex_file.
Proof.
  split.
  { split; [intros []; reflexivity|]. split; [intros []; reflexivity|]. split; [easy|].
    split; [discriminate|]. repeat constructor; cbn; lia. }
  split; [discriminate|]. split; [discriminate|].
  repeat constructor; cbn; try discriminate; try (intros; congruence); intros c H; try discriminate;
    injection H as <-; lia.
Qed.

Lemma ex_file_tiled : file_tiled ex_file.
Proof. repeat constructor; cbn; lia. Qed.

(** The left cell and the particles 1 and 2 of the first type. *)
Definition ex_subset_mask : mask_state :=
  fst (mask_run (mask_meta_of ex_file)
         [OpSpatial ex_r1 false; OpProperty 0 (Some [1; 2; 3; 4; 5]%Q) 1 4] (new_mask (mask_meta_of ex_file))).

Lemma ex_subset_mask_of : mask_of ex_file ex_subset_mask.
Proof.
  eexists. split; [|reflexivity]. repeat constructor. intros mk H. vm_compute in H. now injection H as <-.
Qed.

Example C22_example :
  exists f', write_subset stable_argsort ex_file ex_subset_mask false = Ok f' /\
    map (fun g => (g_count g, g_counts g, g_offsets g)) (f_groups f')
    = [(2, [2; 0], [0; 2]); (0, [], []); (3, [3; 0], [0; 3])] /\
    map (fun g => map fd_rows (g_fields g)) (f_groups f')
    = [ [ [[11]; [12]]; [[1; 10]; [2; 20]] ]; []; [ [[20]; [21]; [22]] ] ] /\
    f_type f' = Some "VolumeSubset"%string.
Proof. eexists. split; [vm_compute; reflexivity|]. split; [reflexivity|]. split; reflexivity. Qed.

(** Finding: a mask that selects no particle of one type writes a file that cannot be
    subset again, even with the same selection. *)
Definition ex_right_mask (f : sfile Z) : mask_state :=
  fst (mask_run (mask_meta_of f) [OpSpatial ex_r2 false] (new_mask (mask_meta_of f))).

Theorem C22_subset_of_subset_refuted :
  exists (f f' : sfile Z) (st : mask_state),
    wf_file f /\ file_tiled f /\ mask_of f st /\ write_subset stable_argsort f st false = Ok f' /\
    forall st' allow f'', write_subset stable_argsort f' st' allow <> Ok f''.
Proof.
  exists ex_file. eexists. exists (ex_right_mask ex_file).
  split; [exact ex_file_wf|]. split; [exact ex_file_tiled|]. split.
  { eexists. split; [|reflexivity]. repeat constructor. }
  split; [vm_compute; reflexivity|].
  intros st' allow f''. eapply C22_empty_dataset_fails; [right; right; left; reflexivity|left; reflexivity|reflexivity].
Qed.

(** * C23 *)

Theorem C23_mask_of_subset :
  forall (V : Type) (argsort : list Z -> list nat) (f f' : sfile V) (st : mask_state) (allow : bool)
         (region : list (option (list Q))) (union : bool),
  is_argsort argsort -> wf_file f -> file_tiled f -> mask_of f st -> type_ok (f_type f) ->
  write_subset argsort f st allow = Ok f' ->
  ok_region (mask_meta_of f) region ->
  (forall mk c, In mk (mm_keys (mask_meta_of f)) -> In c (key_cells mk) -> extent_ok (f_box f) c) ->
  exists st2, constrain_spatial (mask_meta_of f') region union (new_mask (mask_meta_of f')) = (st2, None) /\
  forall g gr gr', nth_error (f_groups f) g = Some gr -> nth_error (f_groups f') g = Some gr' ->
    present gr' = true ->
    exists mk rows, nth_error (mm_keys (mask_meta_of f)) (key_of f g) = Some mk /\
      (forall i, In i rows <-> selected st (key_of f g) i) /\
      Forall2 (field_subset rows) (g_fields gr) (g_fields gr') /\
      (forall p, selected st2 (key_of f' g) p -> 0 <= p < zlen rows) /\
      (forall p row, nth_error rows p = Some row ->
         (selected st2 (key_of f' g) (Z.of_nat p) <->
          exists c, In c (key_cells mk) /\ stored_in c row /\ region_touches (f_box f) region c)).
Proof.
  intros V argsort f f' st allow region union Harg Hw Ht Hm Hty E (Hwfr & Hwin) Hext.
  assert (Hal : ms_constrained st <> None \/ allow = true).
  { unfold write_subset in E. destruct (ms_constrained st); [left; discriminate|]. destruct allow; [now right|discriminate]. }
  destruct (write_subset_ok argsort f st allow Harg Hw Ht Hm Hty Hal)
    as (f2 & E2 & _ & H1 & H2 & H3 & H4 & H5 & H6 & H7).
  rewrite E in E2. injection E2 as <-.
  pose proof (new_wf_raw f f' st Hw Ht H1 H2 H3 H4 H5 H6 H7) as Hw'.
  pose proof (new_tiled f f' st Hw Ht H1 H2 H3 H6 H7) as Ht'.
  (* facts about the cells of a group of the new file *)
  assert (Hcells : forall g gr gr', nth_error (f_groups f) g = Some gr -> nth_error (f_groups f') g = Some gr' ->
    present gr' = true -> exists mk mk' rs,
      nth_error (mm_keys (mask_meta_of f)) (key_of f g) = Some mk /\
      nth_error (mm_keys (mask_meta_of f')) (key_of f' g) = Some mk' /\
      (forall i, In i (indices_of rs) <-> selected st (key_of f g) i) /\
      Forall2 (field_subset (indices_of rs)) (g_fields gr) (g_fields gr') /\
      zlen (indices_of rs) = key_total mk' /\
      length (key_cells mk') = length (key_cells mk) /\
      forall j c, nth_error (key_cells mk) j = Some c -> exists c', nth_error (key_cells mk') j = Some c' /\
        cell_min c' = cell_min c /\ cell_max c' = cell_max c /\
        forall p row, nth_error (indices_of rs) p = Some row -> (stored_in c' (Z.of_nat p) <-> stored_in c row)).
  { intros g gr gr' Hg Hg' Hp'. destruct (old_group f f' st H6 H7 g gr' Hg') as (gr2 & Hg2 & Hgw).
    rewrite Hg in Hg2. injection Hg2 as <-. pose proof (present_old f st g gr gr' Hg Hgw Hp') as Hp.
    pose proof Hgw as (_ & _ & Hx). rewrite Hp in Hx.
    destruct Hx as (mk & rs & Hk & Hrs & Hin & Hord & Hs & Hsel & Hcnt & Hcs & Hos & Hff).
    pose proof (new_key f f' st Hw H1 H2 H3 H6 H7 g gr gr' mk rs Hg Hg' Hgw Hp' Hk Hrs) as Hk'. cbv zeta in Hk'.
    assert (Htile : cells_tile 0 (key_cells mk) (key_total mk)).
    { unfold file_tiled in Ht. apply (proj1 (Forall_forall _ _) Ht). eapply nth_error_In. exact Hk. }
    exists mk. eexists. exists rs. split; [assumption|]. split; [exact Hk'|]. split; [assumption|].
    split; [eapply Forall2_imp; [exact Hff|now intros a b [Ha _]]|]. cbn [key_total key_cells]. split.
    { apply zlen_indices_of. eapply Forall_impl; [|exact Hin]. unfold in_bounds. cbn. intros; lia. }
    split.
    { unfold new_cells. rewrite zip3_length; rewrite ?running_offsets_length, ?map_length; reflexivity. }
    apply (stored_in_new (key_cells mk) (key_total mk)); auto.
    now apply (mask_for_rows (key_total mk) (inl rs)). }
  assert (Hbox : mm_box (mask_meta_of f') = f_box f) by (cbn; assumption).
  destruct (C08_exact_cells (mask_meta_of f') region union (unpack_wf _ Hw')) as (st2 & Est & Hsel2); auto.
  { now rewrite Hbox. }
  { rewrite Hbox. intros mk' c' Hmk' Hc'. apply In_nth_error in Hmk' as [k Hk'].
    destruct (key_group f' k mk' Hk') as (g & gr' & Hg' & Hp' & ->).
    destruct (old_group f f' st H6 H7 g gr' Hg') as (gr & Hg & _).
    destruct (Hcells g gr gr' Hg Hg' Hp') as (mk & mk2 & rs & Hk & Hk2 & _ & _ & _ & Hl & Hc2).
    rewrite Hk' in Hk2. injection Hk2 as <-. apply In_nth_error in Hc' as [j Hj'].
    destruct (nth_error (key_cells mk) j) as [c|] eqn:Hj.
    - destruct (Hc2 j c Hj) as (c2 & Ec2 & Hmin & Hmax & _). rewrite Hj' in Ec2. injection Ec2 as <-.
      intros a. rewrite Hmin, Hmax. apply (Hext mk c); eapply nth_error_In; eassumption.
    - apply nth_error_None in Hj. assert (j < length (key_cells mk'))%nat by (apply nth_error_Some; congruence). lia. }
  exists st2. split; [assumption|]. intros g gr gr' Hg Hg' Hp'.
  destruct (Hcells g gr gr' Hg Hg' Hp') as (mk & mk' & rs & Hk & Hk' & Hsel & Hff & Hz & Hl & Hc2).
  exists mk, (indices_of rs). split; [assumption|]. split; [assumption|]. split; [assumption|].
  assert (Hregion : forall c c' : cell, cell_min c' = cell_min c -> cell_max c' = cell_max c ->
            (region_touches (f_box f) region c' <-> region_touches (f_box f) region c)).
  { intros c c' Ea Eb. unfold region_touches. now rewrite Ea, Eb. }
  split.
  - intros p Hp. apply Hsel2 in Hp as (mk2 & c' & Hk2 & Hc' & Hst & _). rewrite Hk' in Hk2. injection Hk2 as <-.
    rewrite Hz. assert (Hf : cells_in_file mk').
    { pose proof (unpack_wf _ Hw') as (_ & Hf & _). apply (proj1 (Forall_forall _ _) Hf). eapply nth_error_In. exact Hk'. }
    destruct Hf as (_ & Hf). apply (proj1 (Forall_forall _ _) Hf) in Hc'. unfold stored_in in Hst. lia.
  - intros p row Hp. rewrite Hsel2. split.
    + intros (mk2 & c' & Hk2 & Hc' & Hst & Htch). rewrite Hk' in Hk2. injection Hk2 as <-.
      apply In_nth_error in Hc' as [j Hj'].
      destruct (nth_error (key_cells mk) j) as [c|] eqn:Hj.
      * destruct (Hc2 j c Hj) as (c2 & Ec2 & Hmin & Hmax & Hs2). rewrite Hj' in Ec2. injection Ec2 as <-.
        exists c. split; [eapply nth_error_In; exact Hj|]. split; [now apply (Hs2 p row Hp)|].
        rewrite Hbox in Htch. now apply (Hregion c c').
      * apply nth_error_None in Hj. assert (j < length (key_cells mk'))%nat by (apply nth_error_Some; congruence). lia.
    + intros (c & Hc & Hst & Htch). apply In_nth_error in Hc as [j Hj].
      destruct (Hc2 j c Hj) as (c' & Ec2 & Hmin & Hmax & Hs2).
      exists mk', c'. split; [assumption|]. split; [eapply nth_error_In; exact Ec2|].
      split; [now apply (Hs2 p row Hp)|]. rewrite Hbox. now apply (Hregion c c').
Qed.

Example C23_example :
  exists f', write_subset stable_argsort ex_file
               (fst (mask_run (mask_meta_of ex_file) [OpProperty 0 (Some [1; 2; 3; 4; 5]%Q) 1 4]
                              (new_mask (mask_meta_of ex_file)))) false = Ok f' /\
    masked_rows (ms_masks (fst (constrain_spatial (mask_meta_of f') ex_r2 false (new_mask (mask_meta_of f'))))) 0
    = [2] /\
    ok_region (mask_meta_of ex_file) ex_r2.
Proof.
  eexists. split; [vm_compute; reflexivity|]. split; [reflexivity|].
  split.
  - split; [reflexivity|]. intros r [<-|[<-|[<-|[]]]]; cbn; auto.
  - cbn. repeat split; repeat constructor; cbn; discriminate.
Qed.

(** * C24 *)

Theorem C24_output_type_stable :
  forall t t' : option string, write_output_type t = Ok t' ->
    (exists k, metadata_discriminator t = Ok k /\ metadata_discriminator t' = Ok k) /\
    (t <> None -> exists s, t' = Some s /\ is_subset_type s) /\
    write_output_type t' = Ok t'.
Proof.
  intros [t|] t' H; cbn in H.
  - unfold subset_output_type in H. unfold metadata_discriminator.
    destruct (String.eqb_spec t "FullVolume") as [->|N1].
    { injection H as <-. split; [eexists; split; reflexivity|]. split; [|reflexivity].
      intros _. eexists. split; [reflexivity|]. unfold is_subset_type. auto. }
    destruct (String.eqb_spec t "SOAP") as [->|N2].
    { injection H as <-. split; [eexists; split; reflexivity|]. split; [|reflexivity].
      intros _. eexists. split; [reflexivity|]. unfold is_subset_type. auto. }
    destruct (String.eqb_spec t "FOF") as [->|N3].
    { injection H as <-. split; [eexists; split; reflexivity|]. split; [|reflexivity].
      intros _. eexists. split; [reflexivity|]. unfold is_subset_type. auto. }
    destruct (String.eqb_spec t "VolumeSubset") as [->|N4].
    { injection H as <-. split; [eexists; split; reflexivity|]. split; [|reflexivity].
      intros _. eexists. split; [reflexivity|]. unfold is_subset_type. auto. }
    destruct (String.eqb_spec t "SOAPSubset") as [->|N5].
    { injection H as <-. split; [eexists; split; reflexivity|]. split; [|reflexivity].
      intros _. eexists. split; [reflexivity|]. unfold is_subset_type. auto. }
    destruct (String.eqb_spec t "FOFSubset") as [->|N6].
    { injection H as <-. split; [eexists; split; reflexivity|]. split; [|reflexivity].
      intros _. eexists. split; [reflexivity|]. unfold is_subset_type. auto. }
    discriminate.
  - injection H as <-. split; [eexists; split; reflexivity|]. split; [congruence|reflexivity].
Qed.

(** Every type the loader recognises can be subset, except lines of sight (which cannot be
    masked). *)
Theorem C24_recognised_types_are_writable :
  forall (t : option string) (k : file_kind), metadata_discriminator t = Ok k -> k <> KLineOfSight ->
  exists t', write_output_type t = Ok t'.
Proof.
  intros [t|] k H Hk; [|eexists; reflexivity].
  unfold metadata_discriminator in H. unfold write_output_type, subset_output_type.
  destruct (String.eqb_spec t "FullVolume"); [eexists; reflexivity|].
  destruct (String.eqb_spec t "VolumeSubset") as [->|]; [eexists; reflexivity|]. cbn in H.
  destruct (String.eqb_spec t "LineOfSight"); [congruence|].
  destruct (String.eqb_spec t "SOAP"); [eexists; reflexivity|].
  destruct (String.eqb_spec t "SOAPSubset") as [->|]; [eexists; reflexivity|]. cbn in H.
  destruct (String.eqb_spec t "FOF"); [eexists; reflexivity|].
  destruct (String.eqb_spec t "FOFSubset") as [->|]; [eexists; reflexivity|]. discriminate.
Qed.

(** The type of the file written. *)
Theorem C24_subset_file_type :
  forall (V : Type) (argsort : list Z -> list nat) (f f' : sfile V) (st : mask_state) (allow : bool),
  write_subset argsort f st allow = Ok f' ->
  write_output_type (f_type f) = Ok (f_type f').
Proof.
  intros V argsort f f' st allow E. unfold write_subset in E.
  assert (E' : match convert_masks_to_ranges (ms_masks st) with
      | InBools _ => Err RuntimeError
      | InRanges ranges =>
          do t <- write_output_type (f_type f);
          do groups <- all_ok (map (fun mg => write_group argsort (cell_sort_of f) (fst mg) (snd mg))
                                   (assign_keys (f_groups f) (combine (mm_keys (mask_meta_of f)) ranges)));
          Ok (mk_sfile t (take_order (f_centres f) (cell_sort_of f)) (f_size f) (f_pad f) (f_box f)
                       (f_shared f) groups)
      end = Ok f') by (destruct (ms_constrained st); [|destruct allow]; [assumption|assumption|discriminate]).
  destruct (convert_masks_to_ranges (ms_masks st)) as [ranges|]; [|discriminate].
  apply bind_ok in E' as (t & Et & E'). apply bind_ok in E' as (groups & _ & E'). injection E' as <-. exact Et.
Qed.

(** Which files are read as what: files without the attribute are snapshots. *)
Theorem C24_kinds : forall t k, metadata_discriminator t = Ok k <->
  match k with
  | KSnapshot => t = None \/ t = Some "FullVolume"%string \/ t = Some "VolumeSubset"%string
  | KLineOfSight => t = Some "LineOfSight"%string
  | KSOAP => t = Some "SOAP"%string \/ t = Some "SOAPSubset"%string
  | KFOF => t = Some "FOF"%string \/ t = Some "FOFSubset"%string
  end.
Proof.
  intros [t|] k; unfold metadata_discriminator.
  - destruct (String.eqb_spec t "FullVolume"), (String.eqb_spec t "VolumeSubset"), (String.eqb_spec t "LineOfSight"),
      (String.eqb_spec t "SOAP"), (String.eqb_spec t "SOAPSubset"), (String.eqb_spec t "FOF"),
      (String.eqb_spec t "FOFSubset"); subst; try discriminate; cbn [orb];
      destruct k; split; intro H; try discriminate; auto;
      repeat match goal with
             | H : _ \/ _ |- _ => destruct H
             | H : Some _ = Some _ |- _ => injection H as H
             end; try discriminate; try congruence.
  - cbn. destruct k; split; intro H; try discriminate; auto;
      repeat match goal with H : _ \/ _ |- _ => destruct H end; discriminate.
Qed.

Example C24_example :
  write_output_type (Some "SOAP"%string) = Ok (Some "SOAPSubset"%string) /\
  write_output_type (Some "LineOfSight"%string) = Err KeyError /\
  metadata_discriminator (Some "FOFSubset"%string) = Ok KFOF.
Proof. repeat split; reflexivity. Qed.

Print Assumptions C22_subset_holds_masked_rows.
Print Assumptions C22_load_equals_masked_load.
Print Assumptions C22_subset_again.
Print Assumptions C22_unconstrained_refused.
Print Assumptions C22_empty_dataset_fails.
Print Assumptions C22_subset_of_subset_refuted.
Print Assumptions C23_mask_of_subset.
Print Assumptions C24_output_type_stable.
Print Assumptions C24_recognised_types_are_writable.
Print Assumptions C24_subset_file_type.
Print Assumptions C24_kinds.

(** Theorems about masks, datasets and users that share arrays (C101). *)
From Coq Require Import List ZArith QArith Bool Lia.
From Verif Require Import Base BaseLemmas RangesModel SortModel MaskModel ReaderModel MaskHeapModel MaskHeapSpec MaskHeapProofs.
Import ListNotations.
Open Scope Z_scope.

(** A new mask in memory is the new mask as a value, and nothing that was in memory is changed. *)
Theorem C101_new : forall mm h h' m, h_new mm h = (h', m) ->
  sound_mask mm h' m /\ stands h' m (new_mask mm) /\ exists k, h' = h ++ k.
Proof.
  intros mm h h' m E. pose proof (h_new_ok mm h) as H. rewrite E in H. destruct H as (S & T & _).
  split; [exact S|]. split; [exact T|]. unfold h_new, h_update in E. cbn [hm_range] in E. rewrite allocate_eq in E.
  injection E as <- _. eexists. reflexivity.
Qed.

(** Every method of the mask in memory does what it does to the mask as a value, with the same exception. *)
Theorem C101_refines : forall mm op h m st h' m' e, sound_mask mm h m -> stands h m st ->
  h_step mm op h m = (h', m', e) ->
  sound_mask mm h' m' /\ stands h' m' (fst (mask_step mm op st)) /\ e = snd (mask_step mm op st).
Proof.
  intros mm op h m st h' m' e S T E. pose proof (h_step_ok mm op h m st S T) as H. rewrite E in H.
  unfold refines in H. tauto.
Qed.

(** A mask in memory is one value. *)
Theorem C101_one_value : forall mm h m, sound_mask mm h m ->
  exists st, stands h m st /\ forall st', stands h m st' -> st' = st.
Proof.
  intros mm h m S. destruct (sound_stands mm h m S) as (st & T). exists st. split; [exact T|].
  intros st' T'. apply (stands_unique h m); assumption.
Qed.

(** No method changes an array of ranges that exists. *)
Theorem C101_ranges_stay : forall mm op h m h' m' e, sound_mask mm h m -> h_step mm op h m = (h', m', e) ->
  forall r l, nth_error h r = Some (ARanges l) -> nth_error h' r = Some (ARanges l).
Proof.
  intros mm op h m h' m' e S E. destruct (sound_stands mm h m S) as (st & T).
  pose proof (h_step_ok mm op h m st S T) as H. rewrite E in H. unfold refines in H. apply H.
Qed.

(** A dataset keeps the selection it was loaded with, whatever is done with the mask afterwards. *)
Theorem C101_dataset_stable : forall mm us w, sound mm w ->
  sound mm (use_run mm us w)
  /\ forall i d, nth_error (w_datasets w) i = Some d ->
       nth_error (w_datasets (use_run mm us w)) i = Some d
       /\ forall key, dataset_mask (w_mem (use_run mm us w)) d key = dataset_mask (w_mem w) d key.
Proof.
  intros mm us w S. destruct (use_run_ok mm us w S) as (S' & K & (ds & D)). split; [exact S'|].
  intros i d H. split.
  - rewrite D, nth_error_app1; [exact H|]. apply nth_error_Some. congruence.
  - intro key. apply dataset_mask_kept; [exact K|]. intros r I. apply S with (d := d); [|exact I].
    apply nth_error_In in H. exact H.
Qed.

Lemma loaded_mask : forall h m st key, stands h m st -> hm_range m = true ->
  dataset_mask h (hm_slots m) key = match ms_masks st with InRanges l => nth_error l key | InBools _ => None end.
Proof.
  intros h m st key T R. destruct T as [l _ F|l R' F]; [|congruence]. cbn [ms_masks]. unfold dataset_mask.
  clear R. revert key. induction F as [|s x slots l (H & Hz) F IH]; intros [|key]; try reflexivity; cbn [nth_error].
  - destruct s as (r, z), x as (a, z'). cbn [fst snd] in *. unfold ranges_at. rewrite H, Hz. reflexivity.
  - apply IH.
Qed.

(** A load gives a dataset with the selection that the mask has at that time. *)
Theorem C101_dataset_selection : forall mm w st, sound mm w -> stands (w_mem w) (w_mask w) st ->
  exists d, snd (use_step mm (ULoad true) w) = None
    /\ w_datasets (fst (use_step mm (ULoad true) w)) = w_datasets w ++ [d]
    /\ (forall key, dataset_mask (w_mem (fst (use_step mm (ULoad true) w))) d key = group_mask (Some st) key)
    /\ stands (w_mem (fst (use_step mm (ULoad true) w))) (w_mask (fst (use_step mm (ULoad true) w)))
              (fst (mask_step mm OpToRanges st)).
Proof.
  intros mm w st S T. pose proof (h_to_ranges_ok mm _ _ st (proj1 S) T) as H. cbn [use_step].
  destruct (h_to_ranges (w_mem w) (w_mask w)) as (h, m). destruct H as (S' & T' & _ & R).
  exists (hm_slots m). cbn [fst snd w_datasets w_mem w_mask mask_step].
  split; [reflexivity|]. split; [reflexivity|]. split; [|exact T'].
  intro key. rewrite (loaded_mask h m _ key T' R). reflexivity.
Qed.

(** A load from another file raises and gives no dataset, but the mask is in range form afterwards. *)
Theorem C101_refused_load : forall mm w st, sound mm w -> stands (w_mem w) (w_mask w) st ->
  snd (use_step mm (ULoad false) w) = Some AssertionErr
  /\ w_datasets (fst (use_step mm (ULoad false) w)) = w_datasets w
  /\ hm_range (w_mask (fst (use_step mm (ULoad false) w))) = true
  /\ stands (w_mem (fst (use_step mm (ULoad false) w))) (w_mask (fst (use_step mm (ULoad false) w)))
            (fst (mask_step mm OpToRanges st)).
Proof.
  intros mm w st S T. pose proof (h_to_ranges_ok mm _ _ st (proj1 S) T) as H. cbn [use_step].
  destruct (h_to_ranges (w_mem w) (w_mask w)) as (h, m). destruct H as (S' & T' & _ & R).
  cbn [fst snd w_datasets w_mem w_mask mask_step]. auto.
Qed.

(** Whole programs: at the end the mask is what the calls make of it, and every dataset has the selection of
    the mask at its own load. *)
Theorem C101_program : forall mm us w st st' sts, sound mm w -> stands (w_mem w) (w_mask w) st ->
  course mm st us st' sts ->
  stands (w_mem (use_run mm us w)) (w_mask (use_run mm us w)) st'
  /\ exists ds, w_datasets (use_run mm us w) = w_datasets w ++ ds
       /\ Forall2 (fun d s => forall key, dataset_mask (w_mem (use_run mm us w)) d key = group_mask (Some s) key) ds sts.
Proof.
  intros mm us w st st' sts S T C. revert w S T. induction C as [st|st st1 st2 op e us sts E C IH|st st1 st2 us sts E C IH|st st1 st2 us sts E C IH|st st1 key us sts C IH];
    intros w S T; cbn [use_run].
  - split; [exact T|]. exists []. split; [rewrite app_nil_r; reflexivity|constructor].
  - pose proof (use_step_ok mm (UMask op) w S) as (S1 & _ & _).
    pose proof (h_step_ok mm op _ _ st (proj1 S) T) as H. rewrite E in H. cbn [use_step] in *.
    destruct (h_step mm op (w_mem w) (w_mask w)) as ((h1, m1), e1). cbn [fst] in *. destruct H as (_ & T1 & _ & _).
    destruct (IH _ S1 T1) as (T2 & ds & D & F). split; [exact T2|]. exists ds. split; [exact D|exact F].
  - pose proof (use_step_ok mm (ULoad true) w S) as (S1 & _ & _).
    destruct (C101_dataset_selection mm w st S T) as (d & _ & D1 & K & T1).
    assert (E1 : fst (mask_step mm OpToRanges st) = st1) by (rewrite E; reflexivity). rewrite E1 in T1.
    destruct (IH _ S1 T1) as (T2 & ds & D & F). split; [exact T2|]. exists (d :: ds).
    split; [rewrite D, D1, <- app_assoc; reflexivity|]. constructor; [|exact F].
    intro key. rewrite <- K. destruct (C101_dataset_stable mm us _ S1) as (_ & G).
    apply (G (length (w_datasets w)) d). rewrite D1, nth_error_app2, Nat.sub_diag by lia. reflexivity.
  - pose proof (use_step_ok mm (ULoad false) w S) as (S1 & _ & _).
    destruct (C101_refused_load mm w st S T) as (_ & D1 & _ & T1).
    assert (E1 : fst (mask_step mm OpToRanges st) = st1) by (rewrite E; reflexivity). rewrite E1 in T1.
    destruct (IH _ S1 T1) as (T2 & ds & D & F). split; [exact T2|]. exists ds. rewrite D, D1. auto.
  - pose proof (use_step_ok mm (UTake key) w S) as (S1 & _ & _).
    assert (Q : w_mem (fst (use_step mm (UTake key) w)) = w_mem w /\ w_mask (fst (use_step mm (UTake key) w)) = w_mask w
              /\ w_datasets (fst (use_step mm (UTake key) w)) = w_datasets w).
    { cbn [use_step]. destruct (nth_error (hm_slots (w_mask w)) key) as [(r, z)|]; cbn; auto. }
    destruct Q as (Q1 & Q2 & Q3). destruct (IH _ S1) as (T2 & ds & D & F); [rewrite Q1, Q2; exact T|].
    split; [exact T2|]. exists ds. rewrite D, Q3. auto.
Qed.

(** Every program has a course. *)
Theorem C101_course_total : forall mm us st, exists st' sts, course mm st us st' sts.
Proof.
  intros mm. induction us as [|u us IH]; intro st; [exists st, []; constructor|].
  destruct u as [op|[|]|key].
  - destruct (mask_step mm op st) as (st1, e) eqn:E. destruct (IH st1) as (st' & sts & C).
    exists st', sts. apply (course_call mm st st1 st' op e us sts E C).
  - destruct (IH (fst (mask_step mm OpToRanges st))) as (st' & sts & C). exists st', (st :: sts).
    eapply course_load; [reflexivity|exact C].
  - destruct (IH (fst (mask_step mm OpToRanges st))) as (st' & sts & C). exists st', sts.
    eapply course_refused; [reflexivity|exact C].
  - destruct (IH st) as (st' & sts & C). exists st', sts. constructor. exact C.
Qed.

(** An array of ranges that the user has taken from the mask stays as it is. *)
Theorem C101_taken_ranges : forall mm us w r l, sound mm w -> In r (w_taken w) ->
  nth_error (w_mem w) r = Some (ARanges l) -> nth_error (w_mem (use_run mm us w)) r = Some (ARanges l).
Proof. intros mm us w r l S _ H. apply (proj1 (proj2 (use_run_ok mm us w S))). exact H. Qed.

(** * Examples *)

Definition ex_cell (o c : Z) (x : Q) : cell := mk_cell o c (fun _ => x) (fun _ => x + 1)%Q.
Definition ex_meta : mask_meta :=
  mk_mask_meta false (fun _ => 4%Q)
    [mk_mask_key [ex_cell 0 2 0; ex_cell 2 3 2] 5; mk_mask_key [ex_cell 0 1 0; ex_cell 1 1 2] 2].
Definition ex_world : world := let '(h, m) := h_new ex_meta [] in mkworld h m [] [].

Example C101_ex_sound : sound ex_meta ex_world /\ stands (w_mem ex_world) (w_mask ex_world) (new_mask ex_meta).
Proof.
  unfold ex_world. pose proof (h_new_ok ex_meta []) as H. destruct (h_new ex_meta []) as (h, m). destruct H as (S & T & _).
  split; [|exact T]. split; [exact S|]. intros d r [].
Qed.

(** Constrain to the first cell, load, constrain the first type by a property, load again, convert: the first
    dataset still has both rows, the second one has the row that is left. *)
Example C101_ex_program :
  let us := [UMask (OpSpatial [Some [0; 1]%Q; None; None] false); ULoad true;
             UMask (OpProperty 0 (Some [1; 2; 3; 4; 5]%Q) 1 9); ULoad true; UMask OpToBool;
             UMask (OpProperty 0 (Some [1; 2; 3; 4; 5]%Q) 7 9)] in
  let w := use_run ex_meta us ex_world in
  map (fun d => dataset_mask (w_mem w) d 0) (w_datasets w) = [Some ([(0, 2)], 2); Some ([(1, 2)], 1)]
  /\ bools_at (w_mem w) (fst (nth 0 (hm_slots (w_mask w)) (0%nat, 0))) = [false; false; false; false; false].
Proof. vm_compute. auto. Qed.

(** Arrays of booleans that the user has taken do change. *)
Theorem C101_taken_bools_refuted :
  ~ (forall mm us w r b, sound mm w -> In r (w_taken w) ->
       nth_error (w_mem w) r = Some (ABools b) -> nth_error (w_mem (use_run mm us w)) r = Some (ABools b)).
Proof.
  intro H.
  pose (w := use_run ex_meta [UMask OpToBool; UTake 0] ex_world).
  assert (S : sound ex_meta w).
  { destruct (C101_dataset_stable ex_meta [UMask OpToBool; UTake 0] ex_world (proj1 C101_ex_sound)) as (S & _). exact S. }
  specialize (H ex_meta [UMask (OpProperty 0 (Some [1; 2; 3; 4; 5]%Q) 1 9)] w 2%nat [true; true; true; true; true] S).
  specialize (H (or_introl eq_refl)). specialize (H eq_refl). vm_compute in H. discriminate.
Qed.

Print Assumptions C101_new.
Print Assumptions C101_refines.
Print Assumptions C101_one_value.
Print Assumptions C101_ranges_stay.
Print Assumptions C101_dataset_stable.
Print Assumptions C101_dataset_selection.
Print Assumptions C101_refused_load.
Print Assumptions C101_program.
Print Assumptions C101_course_total.
Print Assumptions C101_taken_ranges.
Print Assumptions C101_taken_bools_refuted.

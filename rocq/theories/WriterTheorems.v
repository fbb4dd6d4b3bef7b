(** Theorems about the snapshot writer. *)
From Coq Require Import String List ZArith Bool Reals QArith Qreals Lia Lra Sorting.Sorted.
From Verif Require Import Base BaseLemmas CosmoModel CosmoSpec CosmoProofs CosmoHeapProofs.
From Verif Require Import WriterModel WriterSpec WriterProofs WriterFileProofs WriterHistProofs WriterUnitProofs.
Import ListNotations.
Open Scope R_scope.

(** Two histories of one run: a call of [write] by writer [i] after history [l]. *)

(** C31.  If IDs are missing for some populated type, the IDs of the file are
    1, 2, .., N over all types, N being the total number of particles. *)
Theorem C31_ids_consecutive : forall fz l i w st' f,
  Forall op_shaped l ->
  nth_error (writers (wrun fz init l)) i = Some w ->
  write fz (wrun fz init l) i = (st', Written f) ->
  ids_missing w ->
  file_ids f = map IZR (zrange 1 (1 + sumZ (f_counts f)))
  /\ NoDup (file_ids f).
Proof.
  intros fz l i w st' f Hl Hw H Hm. destruct (reachable fz l Hl) as (Hok & Hs).
  destruct (write_cases _ _ _ _ _ _ Hok Hs Hw H) as
    [(e & Hc & _) | (w' & names & gen & Ho & Hf)]; [discriminate|].
  destruct Ho as (Et & _ & _ & _ & _ & _ & _ & _ & _ & Hg).
  apply (gen_iff _ _ _ _ _ Hok Hw Et) in Hm. destruct (Hg Hm) as (Hids & _).
  symmetry in Hf. rewrite (write_file_ids _ _ _ _ _ Hf), Hids.
  destruct (names_types _ _ _ _ Et) as (N1 & N2 & _).
  assert (E : f_counts f = map (count_of names) ptypes).
  { unfold write_file in Hf. destruct (all_ok _); [|discriminate].
    destruct (write_groups _ _ _ _); [|discriminate]. inversion Hf. reflexivity. }
  rewrite E, count_sum by (auto; intros t Ht; apply N2 in Ht; tauto).
  split; [reflexivity|]. apply arange_nodup.
Qed.

(** The order is that of the particle types, each type having its own block. *)
Theorem C31_type_order : forall fz l i w st' f,
  Forall op_shaped l ->
  nth_error (writers (wrun fz init l)) i = Some w ->
  write fz (wrun fz init l) i = (st', Written f) ->
  StronglySorted lt (map fst (f_groups f))
  /\ (forall t, In t (map fst (f_groups f)) <-> In t ptypes /\ populated w t).
Proof.
  intros fz l i w st' f Hl Hw H. destruct (reachable fz l Hl) as (Hok & Hs).
  destruct (write_cases _ _ _ _ _ _ Hok Hs Hw H) as
    [(e & Hc & _) | (w' & names & gen & Ho & Hf)]; [discriminate|].
  destruct Ho as (Et & _). destruct (names_types _ _ _ _ Et) as (_ & N2 & N3).
  assert (E : map fst (f_groups f) = map fst names).
  { symmetry in Hf. unfold write_file in Hf. destruct (all_ok _); [|discriminate].
    destruct (write_groups _ _ _ _) as [gs|] eqn:Eg; [|discriminate]. inversion Hf. cbn.
    apply (write_groups_spec _ _ _ _ _ Eg). }
  rewrite E. auto.
Qed.

(** C32.  No written file has a repeated ID. *)
Theorem C32_written_ids_distinct : forall fz l i st' f,
  Forall op_shaped l ->
  write fz (wrun fz init l) i = (st', Written f) ->
  NoDup (file_ids f).
Proof.
  intros fz l i st' f Hl H. destruct (reachable fz l Hl) as (Hok & Hs).
  destruct (nth_error (writers (wrun fz init l)) i) as [w|] eqn:Hw.
  2:{ unfold write in H. rewrite Hw in H. discriminate. }
  destruct (write_cases _ _ _ _ _ _ Hok Hs Hw H) as
    [(e & Hc & _) | (w' & names & gen & Ho & Hf)]; [discriminate|].
  symmetry in Hf. rewrite (write_file_ids _ _ _ _ _ Hf).
  destruct Ho as (_ & _ & _ & _ & _ & _ & _ & _ & H0 & H1). destruct gen.
  - rewrite (proj1 (H1 eq_refl)). apply arange_nodup.
  - destruct (H0 eq_refl) as (-> & -> & _ & Hd). exact Hd.
Qed.

(** Repeated IDs given by the user (in one type or in two) stop [write] before the file
    is opened, and nothing is changed. *)
Theorem C32_duplicates_rejected : forall fz l i w,
  Forall op_shaped l ->
  nth_error (writers (wrun fz init l)) i = Some w ->
  ~ ids_missing w -> ~ NoDup (given_ids (wrun fz init l) w) ->
  exists e, write fz (wrun fz init l) i = (wrun fz init l, NotCreated e).
Proof.
  intros fz l i w Hl Hw Hm Hd. destruct (reachable fz l Hl) as (Hok & Hs).
  destruct (write fz (wrun fz init l) i) as [st' out] eqn:H.
  destruct (write_cases _ _ _ _ _ _ Hok Hs Hw H) as
    [(e & -> & -> & _) | (w' & names & gen & Ho & Hf)]; [eauto|].
  exfalso. destruct Ho as (Et & _ & _ & _ & _ & _ & _ & _ & H0 & _).
  destruct gen; [apply Hm; apply (gen_iff _ _ _ _ _ Hok Hw Et); reflexivity|].
  apply Hd. rewrite (given_all_ids _ _ _ _ Et). apply (H0 eq_refl).
Qed.

(** A refusal of complete and distinct IDs can only be for another reason: a missing
    or inconsistent field, or nothing to write. *)
Theorem C32_distinct_accepted : forall fz l i w st' out names gen,
  Forall op_shaped l ->
  nth_error (writers (wrun fz init l)) i = Some w ->
  to_write (wrun fz init l) w ptypes = Ok (names, gen) ->
  (exists t, In t ptypes /\ populated w t) ->
  ids_missing w \/ NoDup (given_ids (wrun fz init l) w) ->
  write fz (wrun fz init l) i = (st', out) ->
  forall e, out <> NotCreated e.
Proof.
  intros fz l i w st' out names gen Hl Hw Et (t & Ht & Hp) Hor H e He. subst out.
  destruct (reachable fz l Hl) as (Hok & Hs).
  destruct (write_cases _ _ _ _ _ _ Hok Hs Hw H) as
    [(e' & _ & _ & [Hc | (nm & Hc & _ & Hx)]) | (w' & nm & g & _ & Hf)].
  - congruence.
  - rewrite Et in Hc. inversion Hc; subst nm gen.
    destruct Hx as [-> | Hx].
    + destruct (names_types _ _ _ _ Et) as (_ & N2 & _). apply (proj2 (N2 t)); auto.
    + apply Hx. destruct Hor as [Hm|Hn].
      * apply (gen_iff _ _ _ _ _ Hok Hw Et) in Hm. discriminate.
      * rewrite <- (given_all_ids _ _ _ _ Et). exact Hn.
  - unfold write_file in Hf. destruct (all_ok _); [|discriminate].
    destruct (write_groups _ _ _ _); discriminate.
Qed.

(** Complete IDs are written as they are; if any are missing, none of those given
    survives (C31). *)
Theorem C32_given_ids_written : forall fz l i w st' f,
  Forall op_shaped l ->
  nth_error (writers (wrun fz init l)) i = Some w ->
  write fz (wrun fz init l) i = (st', Written f) ->
  ~ ids_missing w ->
  file_ids f = given_ids (wrun fz init l) w.
Proof.
  intros fz l i w st' f Hl Hw H Hm. destruct (reachable fz l Hl) as (Hok & Hs).
  destruct (write_cases _ _ _ _ _ _ Hok Hs Hw H) as
    [(e & Hc & _) | (w' & names & gen & Ho & Hf)]; [discriminate|].
  symmetry in Hf. rewrite (write_file_ids _ _ _ _ _ Hf).
  destruct Ho as (Et & _ & _ & _ & _ & _ & _ & _ & H0 & _).
  destruct gen; [exfalso; apply Hm; apply (gen_iff _ _ _ _ _ Hok Hw Et); reflexivity|].
  destruct (H0 eq_refl) as (-> & -> & _ & _). symmetry. eapply given_all_ids; eauto.
Qed.

(** C33.  In a history without changes in place and with one unit system, every
    dimensional field of a written file reads back with the dimensions of the array
    that was given, and with its label and its values in physical cgs units, if the
    exponent of the label is not zero. *)
Theorem C33_read_back : forall fz ru s l1 l2 i st' f t g name d,
  Forall op_shaped (l1 ++ l2) -> Forall no_mutation (l1 ++ l2) ->
  Forall (one_system s) (l1 ++ l2) -> exact_units ru s ->
  write fz (wrun fz init (l1 ++ l2)) i = (st', Written f) ->
  In (t, g) (f_groups f) -> In (name, d) g -> name <> "particle_ids"%string ->
  exists w loc x e,
    nth_error (writers st') i = Some w /\ w_fields w t name = Some loc
    /\ nth_error (mem st') loc = Some x /\ exponent x = Some e
    /\ forall x0, nth_error (mem (wrun fz init l1)) loc = Some x0 ->
       let y := read_field ru f d in
       dims_eq (wdims y) (wdims x0) /\ exponent x0 = Some e
       /\ (e <> 0 -> exponent y = Some e /\ cgs y = cgs x0)
       /\ (e = 0 -> wint x0 = true \/ fz = true -> exponent y = Some 1
                    /\ cgs y = map (fun v => Rpower (f_a f) 1 * v) (cgs x0))
       /\ (e = 0 -> wint x0 = false -> fz = false -> exponent y = Some 0 /\ cgs y = cgs x0).
Proof.
  intros fz ru s l1 l2 i st' f t g name d Hsh Hno Hone Hex H Hg Hd Hne.
  destruct (reachable fz _ Hsh) as (Hok & Hs).
  destruct (nth_error (writers (wrun fz init (l1 ++ l2))) i) as [w|] eqn:Hw.
  2:{ unfold write in H. rewrite Hw in H. discriminate. }
  destruct init_ok as (I1 & I2).
  destruct (run_fields fz s _ init Hsh Hno Hone I1 I2 (init_fields s)) as (Hf & _).
  destruct (write_cases _ _ _ _ _ _ Hok Hs Hw H) as
    [(er & Hc & _) | (w' & names & gen & Ho & Hwf)]; [discriminate|].
  symmetry in Hwf. pose proof Hwf as Hwf0. unfold write_file in Hwf.
  destruct (all_ok _) as [ms|]; [|discriminate].
  destruct (write_groups fz st' w' names) as [gs|] eqn:Eg; [|discriminate].
  inversion Hwf; subst f. clear Hwf. cbn [f_groups] in Hg.
  destruct (write_groups_spec _ _ _ _ _ Eg) as (_ & Hgs).
  destruct (write_fields_spec _ _ _ _ _ _ (Hgs _ _ Hg)) as (_ & Hds).
  destruct (Hds _ _ Hd) as (x & at_ & Hx & Hat & ->).
  unfold lookup in Hx. destruct (w_fields w' t name) as [loc|] eqn:Hloc; [|discriminate].
  destruct (opened_fields fz s _ i w st' w' names gen Hf Hok Hw Ho t name loc x Hloc Hne Hx)
    as (Hgood & Hx1).
  assert (He : exists e, exponent x = Some e).
  { unfold get_attributes in Hat. unfold exponent. destruct (acf (wdata x)) as [c|]; [|discriminate].
    destruct (a_factor c); [|discriminate]. destruct (cexpr c) as [e|]; [eauto|discriminate]. }
  destruct He as (e & He).
  exists w', loc, x, e. split; [apply Ho|]. split; [exact Hloc|]. split; [auto|]. split; [auto|].
  intros x0 Hx0 y.
  assert (Hsys : w_sys w' = s).
  { destruct Ho as (_ & _ & _ & E & _). rewrite E. apply (Hf _ _ Hw). }
  assert (Hkeep : keeps (wrun fz init l1) (wrun fz init (l1 ++ l2))).
  { rewrite wrun_app. apply Forall_app in Hsh, Hno, Hone.
    destruct Hsh as (A1 & A2), Hno as (B1 & B2), Hone as (C1 & C2).
    destruct (reach_ok fz l1 init A1 I1 I2) as (R1 & R2).
    destruct (run_fields fz s l1 init A1 B1 C1 I1 I2 (init_fields s)) as (F1 & _).
    apply (run_fields fz s l2 _ A2 B2 C2 R1 R2 F1). }
  destruct (Hkeep _ _ Hx0) as (x1 & Hx1' & S1 & S2 & S3 & S4).
  assert (x1 = x) by congruence. subst x1. clear Hx1'.
  match goal with y := read_field ru ?ff _ |- _ =>
    destruct (read_written fz ru s ff t name x at_ (w_a w') e Hgood Hat He eq_refl) as
      (R1 & R2 & R3 & R4 & R5); [cbn; rewrite Hsys; reflexivity | exact Hex |] end.
  fold y in R1, R2, R3, R4, R5.
  rewrite S2 in R1. rewrite S4 in R4, R5. rewrite S1 in R5.
  split; [exact R1|].
  split; [unfold exponent in *; rewrite <- S3; exact He|].
  unfold written_exponent in R4, R5. split; [|split].
  - intro Hz. destruct (Reqb e 0) eqn:E; [apply Reqb_true in E; contradiction|].
    split; [exact R4|]. rewrite R5. erewrite map_ext; [apply map_id|]. intro v. cbn.
    field. apply Rpower_nz.
  - intros -> Hint. rewrite Reqb_refl in R4, R5.
    assert (E : wint x0 || fz = true) by (apply orb_true_iff; exact Hint).
    rewrite E in R4, R5.
    split; [exact R4|]. cbn [f_a]. rewrite R5. apply map_ext. intro v.
    replace (Rpower (w_a w') 0) with 1; [field|].
    unfold Rpower. rewrite Rmult_0_l. symmetry. apply exp_0.
  - intros -> Hint ->. rewrite Reqb_refl, Hint in R4, R5. cbn [orb] in R4, R5.
    split; [exact R4|]. rewrite R5. erewrite map_ext; [apply map_id|]. intro v. cbn.
    field. apply Rpower_nz.
Qed.

(** * Concrete histories *)

Definition arr1 (shape : list Z) (v : list R) (e : R) (d : dims) (u : R) : warr :=
  mkwarr shape (mkarr v (Some (cf_create (1/2) e)) (Some true) true CNone) d u true.
Definition sys1 := mkusys 1 1 1 1 1 1.
Definition sys2 := mkusys 1 1000 1 1 1 1.
Definition box1 := arr1 [3%Z] [1; 1; 1] 1 d_length 1.
Definition pos1 := arr1 [1; 3]%Z [1; 2; 3] 1 d_length 100.
Definition vel1 := arr1 [1; 3]%Z [4; 5; 6] 0 d_velocity 1.
Definition mass1 := arr1 [1]%Z [7] 0 d_mass 1.

(** One dark matter particle; positions in units of 100 cm, scale factor 1/2. *)
Definition make1 : list op :=
  [OWriter sys1 box1 3 (1/2); OWriter sys2 box1 3 (1/2); ONew pos1; ONew vel1; ONew mass1].
Definition assign1 : list op :=
  [OAssign 0 1 "coordinates" (GArr 0); OAssign 0 1 "velocities" (GArr 1);
   OAssign 0 1 "masses" (GArr 2)].

Definition writer1 : writer :=
  mkwriter sys1 (1/2) (avals (wdata (convert_to_base sys1 box1))) (fun _ _ => None).
Definition writer1' : writer :=
  set_field (set_field (set_field writer1 1 "coordinates" (Some 0%nat))
     1 "velocities" (Some 1%nat)) 1 "masses" (Some 2%nat).
Definition writer2 : writer :=
  mkwriter sys2 (1/2) (avals (wdata (convert_to_base sys2 box1))) (fun _ _ => None).

Ltac assign := erewrite wrun_assign;
  [ cbn -[Reqb Rleb base_unit Rmult Rdiv Rpower IZR wrun write set_field]
  | reflexivity | reflexivity | reflexivity
  | unfold check_scale; cbn -[oreqb IZR Rdiv]; rewrite oreqb_refl; reflexivity
  | reflexivity | reflexivity | reflexivity].

Lemma make1_state : forall fz, wrun fz init make1
  = mkstate [pos1; vel1; mass1] [writer1; writer2].
Proof. reflexivity. Qed.

Lemma history1_state : forall fz, wrun fz init (make1 ++ assign1) = mkstate
   [convert_to_base sys1 pos1; convert_to_base sys1 vel1; convert_to_base sys1 mass1]
   [writer1'; writer2].
Proof. intro fz. rewrite wrun_app, make1_state. unfold assign1. assign. assign. assign. reflexivity. Qed.

Lemma shaped1 : Forall op_shaped (make1 ++ assign1).
Proof. repeat constructor; cbn; try lia. Qed.

(** The generated file and state for any contents of the memory. *)
Lemma write1 : forall fz x y z,
  wshape x = [1; 3]%Z -> wshape y = [1; 3]%Z -> wshape z = [1]%Z ->
  (exists ax ay az, get_attributes fz x = Ok ax /\ get_attributes fz y = Ok ay
     /\ get_attributes fz z = Ok az) -> avals (wdata z) <> [] ->
  forall ws, nth_error ws 0 = Some writer1' ->
  exists st' f g, write fz (mkstate [x; y; z] ws) 0 = (st', Written f)
    /\ f_a f = 1/2 /\ f_units f = mkusys 1 1 1 1 1 1
    /\ nth_error (mem st') 0 = Some x /\ nth_error (mem st') 1 = Some y
    /\ In (1%nat, g) (f_groups f)
    /\ (exists ax, get_attributes fz x = Ok ax
         /\ In ("coordinates"%string, mkdset (wshape x) (avals (wdata x)) ax) g)
    /\ (exists ay, get_attributes fz y = Ok ay
         /\ In ("velocities"%string, mkdset (wshape y) (avals (wdata y)) ay) g).
Proof.
  intros fz x y z Hx Hy Hz (ax & ay & az & Hax & Hay & Haz) Hne ws Hws.
  destruct ws as [|w0 ws]; [discriminate|]. cbn in Hws. inversion Hws; subst w0. clear Hws.
  assert (Et : to_write (mkstate [x; y; z] (writer1' :: ws)) writer1' ptypes = Ok ([(1%nat, 1%Z)], true)).
  { cbn -[check_consistent]. unfold check_consistent.
    destruct x as [sx ? ? ? ?], y as [sy ? ? ? ?], z as [sz ? ? ? ?]. cbn in Hx, Hy, Hz. subst sx sy sz.
    reflexivity. }
  unfold write. cbn [nth_error writers]. rewrite Et. cbn [generate_ids].
  rewrite (setter_generated _ 0 writer1' 1 1 1) by (reflexivity || lia).
  cbn -[write_file arange wrap_plain set_field writer1'].
  set (m := wrap_plain _ _ _).
  unfold write_file.
  destruct (avals (wdata z)) as [|v0 vs] eqn:Ev; [contradiction|].
  cbn -[Rdiv IZR get_attributes avals wdata wshape m]. rewrite Ev.
  cbn -[Rdiv IZR get_attributes avals wdata wshape m]. rewrite Hax, Hay, Haz.
  assert (Hm : exists am, get_attributes fz m = Ok am) by (eexists; reflexivity).
  destruct Hm as (am & Hm). rewrite Hm. cbn [bind].
  eexists. eexists. eexists. split; [reflexivity|]. cbn.
  split; [reflexivity|]. split; [reflexivity|]. split; [reflexivity|]. split; [reflexivity|].
  split; [left; reflexivity|]. split.
  - exists ax. split; [reflexivity|]. left. rewrite ?Hx. reflexivity.
  - exists ay. split; [reflexivity|]. cbn. tauto.
Qed.

Lemma upow_1 : forall e, upow 1 e = 1.
Proof. intro. unfold upow, Rpower. rewrite ln_1, Rmult_0_r. apply exp_0. Qed.
Lemma Q2R_1 : Q2R 1 = 1.
Proof. unfold Q2R. cbn. lra. Qed.
Lemma base_unit_sys1 : forall d, base_unit sys1 d = 1.
Proof. intro. unfold base_unit. cbn [sys1 uM uL ut uT uI uX]. rewrite !upow_1. ring. Qed.
Lemma base_unit_sys2 : base_unit sys2 d_length = 1000.
Proof.
  unfold base_unit. cbn [sys2 uM uL ut uT uI uX d_length dL dM dt dT dI dX]. rewrite !upow_1.
  unfold upow. rewrite Q2R_1, Rpower_1 by lra. ring.
Qed.
Lemma half_1 : Rpower (1/2) 1 = 1/2.
Proof. apply Rpower_1. lra. Qed.

Lemma attrs1 : forall fz shape v e d u s,
  exists ax, get_attributes fz (convert_to_base s (arr1 shape v e d u)) = Ok ax.
Proof. intros. eexists. reflexivity. Qed.

Lemma write_history1 : forall fz, exists st' f g,
  write fz (wrun fz init (make1 ++ assign1)) 0 = (st', Written f)
    /\ f_a f = 1/2 /\ f_units f = mkusys 1 1 1 1 1 1
    /\ nth_error (mem st') 0 = Some (convert_to_base sys1 pos1)
    /\ nth_error (mem st') 1 = Some (convert_to_base sys1 vel1)
    /\ In (1%nat, g) (f_groups f)
    /\ (exists ax, get_attributes fz (convert_to_base sys1 pos1) = Ok ax
         /\ In ("coordinates"%string, mkdset [1;3]%Z (avals (wdata (convert_to_base sys1 pos1))) ax) g)
    /\ (exists ay, get_attributes fz (convert_to_base sys1 vel1) = Ok ay
         /\ In ("velocities"%string, mkdset [1;3]%Z (avals (wdata (convert_to_base sys1 vel1))) ay) g).
Proof.
  intro fz. rewrite history1_state. apply (write1 fz); try reflexivity; [|discriminate].
  destruct (attrs1 fz [1;3]%Z [1;2;3] 1 d_length 100 sys1) as (ax & Hax).
  destruct (attrs1 fz [1;3]%Z [4;5;6] 0 d_velocity 1 sys1) as (ay & Hay).
  destruct (attrs1 fz [1]%Z [7] 0 d_mass 1 sys1) as (az & Haz). exists ax, ay, az. auto.
Qed.

(** The hypotheses of C31 and C33 are met: a file is written, IDs are generated. *)
Example C31_example : exists st' f,
  write false (wrun false init (make1 ++ assign1)) 0 = (st', Written f)
  /\ ids_missing writer1' /\ file_ids f = [1].
Proof.
  destruct (write_history1 false) as (st' & f & g & H & _).
  exists st', f. split; [exact H|].
  assert (Hm : ids_missing writer1').
  { exists 1%nat. split; [cbn; auto|]. split; [|reflexivity].
    exists "coordinates"%string, d_length. split; [cbn; auto|]. discriminate. }
  split; [exact Hm|].
  assert (Hw : nth_error (writers (wrun false init (make1 ++ assign1))) 0 = Some writer1')
    by (rewrite history1_state; reflexivity).
  destruct (C31_ids_consecutive false _ 0 writer1' st' f shaped1 Hw H Hm) as (E & _).
  rewrite E. clear E.
  rewrite history1_state in H. unfold write in H. cbn [nth_error writers] in H.
  destruct (to_write _ writer1' ptypes) as [[names gen]|] eqn:Et; [|discriminate].
  vm_compute in Et. injection Et as <- <-.
  destruct (generate_ids _ _ _ _ _) as [st1 [w1|]]; [|discriminate].
  inversion H as [[H1 H2]]. unfold write_file in H2.
  destruct (all_ok _); [|discriminate]. destruct (write_groups _ _ _ _); [|discriminate].
  inversion H2. reflexivity.
Qed.

(** C33 for exponent zero: the velocities of the example have exponent 0 (an integer)
    and read back with exponent 1 and half their values. *)
Theorem C33_zero_exponent_refuted : forall fz,
  exists st' f g d,
    write fz (wrun fz init (make1 ++ assign1)) 0 = (st', Written f)
    /\ In (1%nat, g) (f_groups f) /\ In ("velocities"%string, d) g
    /\ nth_error (mem (wrun fz init make1)) 1 = Some vel1
    /\ In (OAssign 0 1 "velocities" (GArr 1)) assign1
    /\ exponent vel1 = Some 0 /\ cgs vel1 = [4; 5; 6]
    /\ exponent (read_field (fun u => u) f d) = Some 1
    /\ cgs (read_field (fun u => u) f d) = [2; 5 / 2; 3].
Proof.
  intro fz. destruct (write_history1 fz) as (st' & f & g & H & Hfa & Hfu & _ & _ & Hg & _ & ay & Hay & Hin).
  exists st', f, g. eexists. split; [exact H|]. split; [exact Hg|]. split; [exact Hin|].
  split; [rewrite make1_state; reflexivity|].
  split; [right; left; reflexivity|].
  split; [reflexivity|].
  assert (Ev : cgs vel1 = [4; 5; 6]).
  { unfold cgs, vel1, arr1, phys. cbn [wdata acm acf cf_create avals wunit map].
    replace (Rpower (1/2) 0) with 1 by (unfold Rpower; rewrite Rmult_0_l, exp_0; reflexivity).
    repeat (f_equal; try ring). }
  split; [exact Ev|].
  unfold get_attributes in Hay. cbn [vel1 arr1 convert_to_base wdata acf cf_create a_factor cexpr cscale] in Hay.
  inversion Hay; subst ay. clear Hay.
  unfold written_exponent in *. rewrite Reqb_refl in *. cbn [orb] in *.
  split; [reflexivity|].
  unfold cgs, read_field. rewrite Hfu, Hfa.
  cbn [wunit wdata ds_vals ds_attrs at_a cf_create phys acm acf avals].
  unfold phys. cbn [acm acf cf_create avals]. rewrite half_1.
  unfold load_units. cbn [at_M at_L at_t at_T at_I fst uM uL ut uT uI d_velocity dM dL dt dT dI vel1 arr1 wdims].
  rewrite !upow_1. cbn [Qeq_bool]. 
  unfold convert_to_base. cbn [vel1 arr1 wdata avals wunit wdims map]. rewrite base_unit_sys1.
  repeat match goal with |- context [if ?b then 1 else 1] => destruct b end;
    repeat (f_equal; try field).
Qed.

(** C52.  A file holds the arrays as they are when [write] is called: their numbers are
    stored whatever their unit and whether they are comoving, and the reader takes them
    for comoving numbers in the writer's base units. *)
Theorem C52_state_at_write : forall fz ru l i w st' f t g name d,
  Forall op_shaped l ->
  nth_error (writers (wrun fz init l)) i = Some w ->
  write fz (wrun fz init l) i = (st', Written f) ->
  In (t, g) (f_groups f) -> In (name, d) g -> name <> "particle_ids"%string ->
  exists loc x, w_fields w t name = Some loc
    /\ nth_error (mem (wrun fz init l)) loc = Some x
    /\ let y := read_field ru f d in
       avals (wdata y) = avals (wdata x) /\ acm (wdata y) = Some true /\ wshape y = wshape x
       /\ (exact_units ru (w_sys w) -> (dI (wdims x) == 0)%Q -> (dX (wdims x) == 0)%Q ->
           wunit y = base_unit (w_sys w) (wdims x)).
Proof.
  intros fz ru l i w st' f t g name d Hsh Hw H Hg Hd Hne.
  destruct (reachable fz _ Hsh) as (Hok & Hs).
  destruct (write_cases _ _ _ _ _ _ Hok Hs Hw H) as
    [(er & Hc & _) | (w' & names & gen & Ho & Hwf)]; [discriminate|].
  symmetry in Hwf. unfold write_file in Hwf.
  destruct (all_ok _) as [ms|]; [|discriminate].
  destruct (write_groups fz st' w' names) as [gs|] eqn:Eg; [|discriminate].
  inversion Hwf; subst f. clear Hwf. cbn [f_groups] in Hg.
  destruct (write_groups_spec _ _ _ _ _ Eg) as (_ & Hgs).
  destruct (write_fields_spec _ _ _ _ _ _ (Hgs _ _ Hg)) as (_ & Hds).
  destruct (Hds _ _ Hd) as (x & at_ & Hx & Hat & ->).
  rewrite (opened_lookup _ _ _ _ _ _ _ _ Hok Hw Ho t name Hne) in Hx.
  unfold lookup in Hx. destruct (w_fields w t name) as [loc|] eqn:Hloc; [|discriminate].
  exists loc, x. split; [reflexivity|]. split; [exact Hx|]. cbv zeta.
  split; [reflexivity|]. split; [reflexivity|]. split; [reflexivity|].
  intros Hex HI HX. unfold read_field. cbn [wunit f_units ds_attrs].
  destruct Ho as (_ & _ & _ & Esys & _). rewrite Esys.
  unfold exact_units in Hex. cbv zeta in Hex. rewrite Hex.
  assert (Ha : at_M at_ = dM (wdims x) /\ at_L at_ = dL (wdims x) /\ at_t at_ = dt (wdims x)
               /\ at_T at_ = dT (wdims x) /\ at_I at_ = dI (wdims x)).
  { unfold get_attributes in Hat. destruct (acf (wdata x)) as [c|]; [|discriminate].
    destruct (a_factor c); [|discriminate]. destruct (cexpr c); [|discriminate].
    inversion Hat; subst. cbn. auto. }
  destruct Ha as (A1 & A2 & A3 & A4 & A5).
  apply load_units_base; rewrite ?A1, ?A2, ?A3, ?A4, ?A5; auto; reflexivity.
Qed.

Definition read_coords (fz : bool) (l : list op) (v : list R) : Prop :=
  exists st' f g d, write fz (wrun fz init l) 0 = (st', Written f)
    /\ In (1%nat, g) (f_groups f) /\ In ("coordinates"%string, d) g
    /\ cgs (read_field (fun u => u) f d) = v.

Lemma read_coords_intro : forall fz l x y z ws v, wrun fz init l = mkstate [x; y; z] ws ->
  wshape x = [1; 3]%Z -> wshape y = [1; 3]%Z -> wshape z = [1]%Z ->
  (exists ay az, get_attributes fz y = Ok ay /\ get_attributes fz z = Ok az) ->
  avals (wdata z) <> [] -> nth_error ws 0 = Some writer1' ->
  acf (wdata x) = Some (cf_create (1/2) 1) -> wdims x = d_length ->
  map (fun u => 1/2 * u) (avals (wdata x)) = v ->
  read_coords fz l v.
Proof.
  intros fz l x y z ws v Hl Hx Hy Hz (ay & az & Hay & Haz) Hne Hws Hcf Hd Hv.
  assert (Hat : get_attributes fz x = Ok (mkattrs 0 1 0 0 0 1 (wunit x) (wunit x * (Rpower (1/2) 1)))).
  { unfold get_attributes. rewrite Hcf. cbn [cf_create a_factor cexpr cscale]. rewrite Hd.
    unfold written_exponent. destruct (Reqb 1 0) eqn:E; [apply Reqb_true in E; lra|]. reflexivity. }
  destruct (write1 fz x y z Hx Hy Hz) with (ws := ws) as
    (st' & f & g & H & Hfa & Hfu & _ & _ & Hg & (ax & Hax & Hin) & _); auto.
  { eexists. exists ay, az. eauto. }
  rewrite Hat in Hax. inversion Hax; subst ax. clear Hax.
  exists st', f, g. eexists. rewrite Hl. split; [exact H|]. split; [exact Hg|].
  split; [exact Hin|]. rewrite <- Hv.
  unfold cgs, read_field. rewrite Hfu, Hfa. cbn [wunit wdata ds_vals ds_attrs at_a].
  unfold phys. cbn [acm acf cf_create avals]. rewrite half_1, map_map. apply map_ext. intro u.
  unfold load_units. cbn [fst uM uL ut uT uI at_M at_L at_t at_T at_I].
  change (Qeq_bool 0 0) with true. change (Qeq_bool 1 0) with false. cbv iota. rewrite upow_1. ring.
Qed.

Lemma cgs_pos1 : cgs pos1 = [50; 100; 150].
Proof.
  unfold cgs, pos1, arr1, phys. cbn [wdata acm acf cf_create avals wunit map]. rewrite half_1.
  repeat (f_equal; try field).
Qed.

(** Assigning the same array to a second writer with another unit system spoils the
    file of the first. *)
Theorem C52_second_writer_refuted : forall fz,
  cgs pos1 = [50; 100; 150]
  /\ read_coords fz (make1 ++ assign1) [50; 100; 150]
  /\ read_coords fz ((make1 ++ assign1) ++ [OAssign 1 1 "coordinates" (GArr 0)])
                 [5 / 100; 10 / 100; 15 / 100].
Proof.
  intro fz. split; [exact cgs_pos1|].
  assert (Hyz : exists ay az, get_attributes fz (convert_to_base sys1 vel1) = Ok ay
                 /\ get_attributes fz (convert_to_base sys1 mass1) = Ok az).
  { eexists. eexists. split; reflexivity. }
  split.
  - eapply read_coords_intro with (1 := history1_state fz); try reflexivity; auto; [discriminate|].
    unfold convert_to_base, pos1, arr1. cbn [wdata avals wunit wdims map]. rewrite base_unit_sys1.
    repeat (f_equal; try field).
  - assert (E : wrun fz init ((make1 ++ assign1) ++ [OAssign 1 1 "coordinates" (GArr 0)])
                = mkstate [convert_to_base sys2 (convert_to_base sys1 pos1);
                           convert_to_base sys1 vel1; convert_to_base sys1 mass1]
                          [writer1'; set_field writer2 1 "coordinates" (Some 0%nat)]).
    { rewrite wrun_app, history1_state. assign. reflexivity. }
    eapply read_coords_intro with (1 := E); try reflexivity; auto; [discriminate|].
    unfold convert_to_base, pos1, arr1. cbn [wdata avals wunit wdims map].
    rewrite base_unit_sys1, base_unit_sys2. repeat (f_equal; try field).
Qed.

(** So does converting the array to physical coordinates after assigning it. *)
Theorem C52_converted_later_refuted : forall fz,
  exists x y, x = convert_to_base sys1 pos1
    /\ nth_error (mem (wrun fz init (make1 ++ assign1))) 0 = Some x
    /\ convert_to_physical (wdata x) = Ok y
    /\ cgs (set_data x y) = cgs pos1
    /\ read_coords fz ((make1 ++ assign1) ++ [OMutate 0 (set_data x y)]) [25; 50; 75].
Proof.
  intro fz. eexists. eexists. split; [reflexivity|].
  split; [rewrite history1_state; reflexivity|]. split; [reflexivity|]. split.
  - rewrite cgs_pos1. unfold cgs, phys. cbn [set_data wdata acm acf avals convert_to_base pos1 arr1 map wunit wdims].
    rewrite base_unit_sys1, half_1. repeat (f_equal; try field).
  - eapply read_coords_intro.
    + rewrite wrun_app, history1_state. cbn [wrun wstep fst mem writers upd]. reflexivity.
    + reflexivity.
    + reflexivity.
    + reflexivity.
    + eexists. eexists. split; reflexivity.
    + discriminate.
    + reflexivity.
    + reflexivity.
    + reflexivity.
    + unfold convert_to_base, pos1, arr1. cbn [set_data wdata avals wunit wdims map].
      rewrite base_unit_sys1, half_1. repeat (f_equal; try field).
Qed.

(** C53.  The box. *)
Theorem C53_box_read_back : forall ru s box dimension a w f,
  new_writer s box dimension a = Ok w ->
  f_box f = w_box w -> f_a f = w_a w -> uL (ru (f_units f)) = uL s -> 0 < uL s ->
  wdims box = d_length -> acf (wdata box) = Some (cf_create a 1) ->
  (acm (wdata box) = Some true -> cgs (read_box ru f) = cgs box)
  /\ (acm (wdata box) = Some false ->
      cgs (read_box ru f) = map (fun v => Rpower a 1 * v) (cgs box)).
Proof.
  intros ru s box dimension a w f Hw Hb Ha Hu Hp Hd Hcf. unfold new_writer in Hw.
  destruct (negb _); [discriminate|]. inversion Hw; subst w. clear Hw. cbn [w_box w_a] in Hb, Ha.
  assert (Eb : base_unit s (wdims box) = uL s).
  { rewrite Hd. unfold base_unit. cbn [d_length dM dL dt dT dI dX].
    rewrite !(upow_zero _ 0) by reflexivity. unfold upow. rewrite Q2R_1, Rpower_1 by auto. ring. }
  unfold cgs, read_box. cbn [wdata wunit]. rewrite Hu.
  assert (Er : phys (mkarr (f_box f) (Some (cf_create (f_a f) 1)) (Some true) true CNone)
               = map (fun v => Rpower a 1 * (v * (wunit box / uL s))) (avals (wdata box))).
  { unfold phys. cbn [acm acf cf_create avals]. rewrite Hb, Ha. cbn [convert_to_base wdata avals].
    rewrite Eb, map_map. reflexivity. }
  rewrite Er. unfold phys. rewrite Hcf. unfold cf_create. split; intros ->; rewrite !map_map; apply map_ext;
    intro v; field; lra.
Qed.

(** Read again, the box is a comoving length of one axis that scales as [a]. *)
Theorem C53_box_is_comoving : forall ru s box dimension a w f,
  new_writer s box dimension a = Ok w -> f_box f = w_box w -> f_a f = w_a w ->
  let y := read_box ru f in
  wshape y = [Z.of_nat (length (avals (wdata box)))] /\ wdims y = d_length /\ wint y = true
  /\ acm (wdata y) = Some true /\ avt (wdata y) = true /\ acf (wdata y) = Some (cf_create a 1).
Proof.
  intros ru s box dimension a w f Hw Hb Ha y. unfold new_writer in Hw.
  destruct (negb _); [discriminate|]. inversion Hw; subst w. clear Hw. cbn [w_box w_a] in Hb, Ha.
  unfold y, read_box, zlen. cbn [wshape wdims wint wdata acm avt acf]. rewrite Hb, Ha.
  cbn [convert_to_base wdata avals]. rewrite map_length. now repeat split.
Qed.

Theorem C53_physical_box_refuted : exists s box a w,
  new_writer s box 3 a = Ok w /\ acm (wdata box) = Some false
  /\ cgs box = [1; 1; 1]
  /\ forall f, f_box f = w_box w -> f_a f = w_a w -> uL (f_units f) = uL s ->
     cgs (read_box (fun u => u) f) = [1/2; 1/2; 1/2].
Proof.
  exists sys1, (mkwarr [3%Z] (mkarr [1;1;1] (Some (cf_create (1/2) 1)) (Some false) true CNone) d_length 1 true),
    (1/2). eexists. split; [reflexivity|]. split; [reflexivity|].
  assert (E : cgs (mkwarr [3%Z] (mkarr [1;1;1] (Some (cf_create (1/2) 1)) (Some false) true CNone) d_length 1 true)
              = [1; 1; 1]).
  { unfold cgs, phys. cbn [wdata acm acf avals map wunit]. repeat (f_equal; try ring). }
  split; [exact E|]. intros f Hb Ha Hu.
  edestruct (C53_box_read_back (fun u => u) sys1
     (mkwarr [3%Z] (mkarr [1;1;1] (Some (cf_create (1/2) 1)) (Some false) true CNone) d_length 1 true)
     3 (1/2) _ f eq_refl Hb Ha Hu) as (_ & H2); try reflexivity; [cbn; lra|].
  rewrite H2 by reflexivity. rewrite E, half_1. cbn [map]. repeat (f_equal; try field).
Qed.

(** C54.  The header counts are the lengths of the datasets, absent types count zero,
    and no written type is empty. *)
Theorem C54_header_counts : forall fz l i w st' f,
  Forall op_shaped l ->
  nth_error (writers (wrun fz init l)) i = Some w ->
  write fz (wrun fz init l) i = (st', Written f) ->
  (forall t g name d, In (t, g) (f_groups f) -> In (name, d) g ->
     exists n tl, ds_shape d = n :: tl /\ nth_error (f_counts f) t = Some n /\ (0 < n)%Z)
  /\ (forall t g, In (t, g) (f_groups f) -> map fst g = map fst (required t))
  /\ (forall t, In t ptypes -> ~ In t (map fst (f_groups f)) -> nth_error (f_counts f) t = Some 0%Z).
Proof.
  intros fz l i w st' f Hsh Hw H. destruct (reachable fz _ Hsh) as (Hok & Hs).
  destruct (write_cases _ _ _ _ _ _ Hok Hs Hw H) as
    [(er & Hc & _) | (w' & names & gen & Ho & Hwf)]; [discriminate|].
  symmetry in Hwf. unfold write_file in Hwf.
  destruct (all_ok _) as [ms|] eqn:Em; [|discriminate].
  destruct (write_groups fz st' w' names) as [gs|] eqn:Eg; [|discriminate].
  inversion Hwf; subst f. clear Hwf. cbn [f_groups f_counts].
  destruct (write_groups_spec _ _ _ _ _ Eg) as (Hmap & Hgs).
  assert (Et : to_write (wrun fz init l) w ptypes = Ok (names, gen)) by apply Ho.
  destruct (names_types _ _ _ _ Et) as (N1 & N2 & _).
  assert (Hcount : forall t, In t ptypes -> nth_error (map (count_of names) ptypes) t = Some (count_of names t)).
  { intros t Ht. rewrite (map_nth_error (count_of names) t ptypes (d := t)); [reflexivity|].
    unfold ptypes in *. apply in_seq in Ht. destruct Ht as [_ Ht]. cbn in Ht.
    do 8 (destruct t as [|t]; [reflexivity|]). lia. }
  split; [|split].
  - intros t g name d Hg Hd.
    assert (Ht : In t (map fst names)) by (rewrite <- Hmap; apply in_map_iff; exists (t, g); auto).
    pose proof Ht as Ht'. apply in_map_iff in Ht'. destruct Ht' as ([t0 n] & E & Hin). cbn in E. subst t0.
    destruct (write_fields_spec _ _ _ _ _ _ (Hgs _ _ Hg)) as (Hnm & Hds).
    destruct (Hds _ _ Hd) as (x & at_ & Hx & Hat & ->). cbn [ds_shape].
    assert (Hr : exists dd, In (name, dd) (required t)).
    { assert (Hi : In name (map fst (required t))) by (rewrite <- Hnm; apply in_map_iff; exists (name, mkdset (wshape x) (avals (wdata x)) at_); auto).
      apply in_map_iff in Hi. destruct Hi as ([nm dd] & E & Hi). cbn in E. subst. eauto. }
    destruct Hr as (dd & Hr).
    destruct (opened_type _ _ _ _ _ _ _ _ t n Hok Hw Ho Hin name dd Hr) as (x' & tl & Hx' & Hshp).
    assert (x' = x) by congruence. subst x'.
    exists n, tl. split; [exact Hshp|].
    assert (Htp : In t ptypes) by (apply N2; exact Ht).
    split; [rewrite Hcount by auto; rewrite (count_of_in _ _ _ N1 Hin); reflexivity|].
    destruct (required_masses t) as (dm & Hm).
    destruct (opened_type _ _ _ _ _ _ _ _ t n Hok Hw Ho Hin _ _ Hm) as (xm & tlm & Hxm & Hsm).
    assert (Hmass : exists m, mass_of st' w' names t = Ok m).
    { eapply all_ok_in; [exact Em|]. apply in_map_iff. exists t. auto. }
    destruct Hmass as (m & Hmass). unfold mass_of in Hmass.
    assert (Eb : existsb (fun p => Nat.eqb (fst p) t) names = true).
    { apply existsb_exists. exists (t, n). split; auto. apply Nat.eqb_refl. }
    rewrite Eb, Hxm in Hmass.
    eapply shaped_nonempty; [|exact Hsm|intro Hc; rewrite Hc in Hmass; discriminate].
    rewrite (opened_lookup _ _ _ _ _ _ _ _ Hok Hw Ho t "masses") in Hxm by discriminate.
    unfold lookup in Hxm. destruct (w_fields w t "masses") as [lm|]; [|discriminate].
    unfold mem_shaped in Hs. rewrite Forall_forall in Hs. apply Hs. eapply nth_error_In; eauto.
  - intros t g Hg. apply (write_fields_spec _ _ _ _ _ _ (Hgs _ _ Hg)).
  - intros t Ht Hn. rewrite Hcount by auto. rewrite count_of_out; [reflexivity|]. rewrite <- Hmap. exact Hn.
Qed.

(** Every group holds exactly the fields its type must have, each once. *)
Theorem C54_fields_of_groups : forall fz l i w st' f,
  Forall op_shaped l ->
  nth_error (writers (wrun fz init l)) i = Some w ->
  write fz (wrun fz init l) i = (st', Written f) ->
  forall t g, In (t, g) (f_groups f) ->
  NoDup (map fst g) /\ forall name, In name (map fst g) <-> must_have t name.
Proof.
  intros fz l i w st' f Hsh Hw H t g Hg.
  destruct (C54_header_counts fz l i w st' f Hsh Hw H) as (_ & Hn & _).
  rewrite (Hn t g Hg). clear. unfold must_have. split.
  - destruct t as [|[|[|[|[|t]]]]]; cbn; repeat constructor; cbn; intuition discriminate.
  - intro name. destruct t as [|[|[|[|[|t]]]]]; cbn; intuition (try discriminate; subst; auto; lia).
Qed.

(** A populated type without particles makes [write] fail after it has opened (and
    truncated) the file, if the other checks are passed. *)
Theorem C54_empty_type_fails : forall fz l i w st' out names gen t x,
  Forall op_shaped l ->
  nth_error (writers (wrun fz init l)) i = Some w ->
  write fz (wrun fz init l) i = (st', out) ->
  In t ptypes -> lookup (wrun fz init l) w t "masses" = Some x -> avals (wdata x) = [] ->
  (forall f, out <> Written f)
  /\ (to_write (wrun fz init l) w ptypes = Ok (names, gen) ->
      ids_missing w \/ NoDup (given_ids (wrun fz init l) w) -> out = Incomplete IndexError).
Proof.
  intros fz l i w st' out names gen t x Hsh Hw H Ht Hx Hv.
  destruct (reachable fz _ Hsh) as (Hok & Hs).
  assert (Hp : populated w t).
  { destruct (required_masses t) as (d & Hd). exists "masses"%string, d. split; auto.
    unfold lookup in Hx. destruct (w_fields w t "masses"); congruence. }
  assert (Hkey : forall w' nm g, opened fz (wrun fz init l) i w st' w' nm g ->
            write_file fz st' w' nm = Incomplete IndexError).
  { intros w' nm g Ho. unfold write_file.
    assert (Et : to_write (wrun fz init l) w ptypes = Ok (nm, g)) by apply Ho.
    destruct (names_types _ _ _ _ Et) as (_ & N2 & _).
    assert (Hin : In t (map fst nm)) by (apply N2; auto).
    apply in_map_iff in Hin. destruct Hin as ([t0 n] & E & Hin). cbn in E. subst t0.
    assert (Hbad : mass_of st' w' nm t = Err IndexError).
    { unfold mass_of.
      assert (Eb : existsb (fun p => Nat.eqb (fst p) t) nm = true).
      { apply existsb_exists. exists (t, n). split; auto. apply Nat.eqb_refl. }
      rewrite Eb, (opened_lookup _ _ _ _ _ _ _ _ Hok Hw Ho t "masses") by discriminate.
      rewrite Hx, Hv. reflexivity. }
    destruct (all_ok (map (mass_of st' w' nm) ptypes)) as [ms|e] eqn:Em.
    - exfalso. assert (Hc : exists a, mass_of st' w' nm t = Ok a).
      { eapply all_ok_in; [exact Em|]. apply in_map_iff. exists t. auto. }
      destruct Hc as (a & Hc). congruence.
    - f_equal. apply all_ok_first in Em. apply in_map_iff in Em. destruct Em as (t1 & Em & Ht1).
      unfold mass_of in Em. destruct (existsb (fun p => Nat.eqb (fst p) t1) nm) eqn:Eb; [|discriminate].
      apply existsb_exists in Eb. destruct Eb as ([t2 n2] & Hin2 & E2). cbn in E2.
      apply Nat.eqb_eq in E2. subst t2.
      destruct (required_masses t1) as (d1 & Hd1).
      destruct (opened_type _ _ _ _ _ _ _ _ t1 n2 Hok Hw Ho Hin2 _ _ Hd1) as (x1 & tl1 & Hx1 & _).
      rewrite Hx1 in Em. destruct (avals (wdata x1)); inversion Em. reflexivity. }
  destruct (write_cases _ _ _ _ _ _ Hok Hs Hw H) as
    [(er & -> & _) | (w' & nm & g & Ho & Hwf)].
  - split; [discriminate|]. intros Et Hor. exfalso.
    eapply (C32_distinct_accepted fz l i w st' (NotCreated er) names gen); eauto.
  - rewrite (Hkey _ _ _ Ho) in Hwf. subst out. split; [discriminate|auto].
Qed.

(** These are all the ways to be left with an incomplete file, apart from arrays whose
    label has no scale-factor expression. *)
Theorem C54_incomplete_causes : forall fz l i w st' e,
  Forall op_shaped l ->
  nth_error (writers (wrun fz init l)) i = Some w ->
  write fz (wrun fz init l) i = (st', Incomplete e) ->
  (e = IndexError /\ exists t x, In t ptypes /\ lookup (wrun fz init l) w t "masses" = Some x
                                 /\ avals (wdata x) = [])
  \/ (exists t name x w', nth_error (writers st') i = Some w' /\ lookup st' w' t name = Some x
        /\ get_attributes fz x = Err e).
Proof.
  intros fz l i w st' e Hsh Hw H. destruct (reachable fz _ Hsh) as (Hok & Hs).
  destruct (write_cases _ _ _ _ _ _ Hok Hs Hw H) as
    [(er & Hc & _) | (w' & names & gen & Ho & Hwf)]; [discriminate|].
  assert (Et : to_write (wrun fz init l) w ptypes = Ok (names, gen)) by apply Ho.
  symmetry in Hwf. unfold write_file in Hwf.
  destruct (all_ok _) as [ms|e0] eqn:Em.
  - right. destruct (write_groups fz st' w' names) as [gs|e1] eqn:Eg; [discriminate|].
    inversion Hwf; subst e1. clear Hwf Em.
    assert (Hin0 : forall t n, In (t, n) names -> In (t, n) names) by auto. revert Hin0 Eg.
    generalize names at 1 3. intro nm. induction nm as [|[t n] rest IH]; intros Hin Eg; [discriminate|].
    cbn [write_groups] in Eg. destruct (write_fields fz st' w' t (required t)) as [g|e1] eqn:Ef.
    + cbn [bind] in Eg. destruct (write_groups fz st' w' rest) as [r|e2] eqn:Er; [discriminate|].
      apply IH; [intros; apply Hin; right; auto|]. exact Eg.
    + cbn [bind] in Eg. inversion Eg; subst e1. clear Eg IH.
      assert (Hreq : forall name d, In (name, d) (required t) -> exists x, lookup st' w' t name = Some x).
      { intros name d Hd. destruct (opened_type _ _ _ _ _ _ _ _ t n Hok Hw Ho (Hin _ _ (or_introl eq_refl)) name d Hd)
          as (x & tl & Hx & _). eauto. }
      revert Hreq Ef. generalize (required t). intro reqs. induction reqs as [|[name d] rs IHr];
        intros Hreq Ef; [discriminate|]. cbn [write_fields] in Ef.
      destruct (Hreq name d (or_introl eq_refl)) as (x & Hx). rewrite Hx in Ef.
      destruct (get_attributes fz x) as [at_|e3] eqn:Ea.
      * cbn [bind] in Ef. destruct (write_fields fz st' w' t rs) as [g|e4] eqn:Ers; [discriminate|].
        apply IHr; [intros; eapply Hreq; right; eauto|]. exact Ef.
      * cbn [bind] in Ef. inversion Ef; subst e3. exists t, name, x, w'. split; [apply Ho|]. auto.
  - left. inversion Hwf; subst e0. clear Hwf. apply all_ok_first in Em. apply in_map_iff in Em.
    destruct Em as (t & Em & Ht). unfold mass_of in Em.
    destruct (existsb (fun p => Nat.eqb (fst p) t) names) eqn:Eb; [|discriminate].
    apply existsb_exists in Eb. destruct Eb as ([t2 n2] & Hin2 & E2). cbn in E2.
    apply Nat.eqb_eq in E2. subst t2.
    destruct (required_masses t) as (d1 & Hd1).
    destruct (opened_type _ _ _ _ _ _ _ _ t n2 Hok Hw Ho Hin2 _ _ Hd1) as (x1 & tl1 & Hx1 & _).
    rewrite Hx1 in Em. destruct (avals (wdata x1)) eqn:Ev; inversion Em. split; [reflexivity|].
    exists t, x1. split; [exact Ht|]. split; [|exact Ev].
    rewrite <- Hx1. symmetry. apply (opened_lookup _ _ _ _ _ _ _ _ Hok Hw Ho). discriminate.
Qed.

(** Such an incomplete file can be had: a type given as arrays of length 0. *)
Definition none1 : list op :=
  [OWriter sys1 box1 3 (1/2); ONew (arr1 [0; 3]%Z [] 1 d_length 1);
   ONew (arr1 [0; 3]%Z [] 0 d_velocity 1); ONew (arr1 [0]%Z [] 0 d_mass 1)] ++ assign1.

Example C54_example : forall fz,
  snd (write fz (wrun fz init none1) 0) = Incomplete IndexError.
Proof.
  intro fz. destruct (write fz (wrun fz init none1) 0) as [st' out] eqn:H. cbn [snd].
  assert (E : wrun fz init none1 = mkstate [convert_to_base sys1 (arr1 [0; 3]%Z [] 1 d_length 1);
     convert_to_base sys1 (arr1 [0; 3]%Z [] 0 d_velocity 1);
     convert_to_base sys1 (arr1 [0]%Z [] 0 d_mass 1)] [writer1']).
  { unfold none1, assign1. rewrite wrun_app.
    change (wrun fz init _) with (mkstate [arr1 [0; 3]%Z [] 1 d_length 1;
      arr1 [0; 3]%Z [] 0 d_velocity 1; arr1 [0]%Z [] 0 d_mass 1] [writer1]).
    assign. assign. assign. reflexivity. }
  edestruct (C54_empty_type_fails fz none1 0 writer1' st' out [(1%nat, 0%Z)] true 1) as (_ & H2).
  - repeat constructor; cbn; try lia.
  - rewrite E. reflexivity.
  - exact H.
  - cbn; auto.
  - rewrite E. reflexivity.
  - reflexivity.
  - apply H2; [rewrite E; reflexivity|]. left. exists 1%nat. split; [cbn; auto|]. split; [|reflexivity].
    exists "coordinates"%string, d_length. split; [cbn; auto|]. discriminate.
Qed.

(** C55.  The units of a file as read: the base unit chosen is a nearest one (in the
    logarithm), the size in it is rounded to five figures, so it is off by at most
    5e-5 of itself and exact if five figures are enough. *)
Theorem C55_nearest_unit : forall bases u v,
  Forall (fun b => 0 < b) bases -> 0 < u -> nearest bases u = Ok v ->
  exists c, In c bases
    /\ (forall b, In b bases -> Rabs (ln (c / u)) <= Rabs (ln (b / u)))
    /\ v = round5 (u / c) * c
    /\ Rabs (v - u) <= u / 20000
    /\ (forall m k, (10000 <= m < 100000)%Z -> u = IZR m * powerRZ 10 k * c -> v = u).
Proof.
  intros bases u v Hb Hu H. unfold nearest in H. destruct bases as [|b t]; [discriminate|].
  cbv zeta in H. inversion H; subst v. clear H.
  destruct (closest_spec u t b) as (I1 & I2). set (c := closest u b t) in *.
  assert (Hc : 0 < c) by (rewrite Forall_forall in Hb; auto).
  exists c. split; [exact I1|]. split; [|split; [reflexivity|split]].
  - intros b' Hb'. specialize (I2 _ Hb'). unfold dist, Rdiv in I2.
    pose proof ln10_pos as L.
    rewrite !Rabs_mult in I2. assert (Hi : 0 < Rabs (/ ln 10)).
    { apply Rabs_pos_lt. apply Rinv_neq_0_compat. lra. }
    eapply Rmult_le_reg_r; [exact Hi|]. exact I2.
  - assert (Hq : 0 < u / c) by (apply Rdiv_lt_0_compat; auto).
    pose proof (round5_error (u / c) Hq) as He.
    replace (round5 (u / c) * c - u) with ((round5 (u / c) - u / c) * c) by (field; lra).
    rewrite Rabs_mult, (Rabs_right c) by lra.
    apply Rle_trans with (u / c / 20000 * c); [apply Rmult_le_compat_r; lra|].
    right. field. lra.
  - intros m k Hm E. rewrite E. replace (IZR m * powerRZ 10 k * c / c) with (IZR m * powerRZ 10 k) by (field; lra).
    rewrite round5_exact by auto. reflexivity.
Qed.

(** More figures are lost. *)
Theorem C55_rounding_loses_figures : exists u v,
  nearest [1] u = Ok v /\ v <> u /\ u = 1000005 / 10000.
Proof.
  exists (1000005 / 10000). eexists. split; [reflexivity|]. split; [|reflexivity].
  cbn [closest]. replace (1000005 / 10000 / 1) with (1000005 / 10000) by field.
  rewrite Rmult_1_r. unfold round5.
  assert (Hd : decade (1000005 / 10000) = (-2)%Z).
  { pose proof (mantissa (1000005 / 10000) ltac:(lra)) as M.
    assert (T : forall a b, (a < b)%Z -> powerRZ 10 a * 10 <= powerRZ 10 b).
    { intros a b Hab. rewrite !pow10_exp. replace 10 with (exp (ln 10)) at 2 by (apply exp_ln; lra).
      rewrite <- exp_plus. apply exp_le. pose proof ln10_pos.
      assert (IZR a + 1 <= IZR b) by (rewrite <- plus_IZR; apply IZR_le; lia). nra. }
    set (k := decade (1000005 / 10000)) in *. pose proof (pow10_pos k) as Hk.
    assert (P2 : powerRZ 10 (-2) = / 100) by (unfold powerRZ; change (Pos.to_nat 2) with 2%nat; unfold pow; field).
    assert (Ex : 1000005 / 10000 / powerRZ 10 k * powerRZ 10 k = 1000005 / 10000) by (field; lra).
    set (q := 1000005 / 10000 / powerRZ 10 k) in *.
    destruct (Z_lt_le_dec k (-2)) as [H|H].
    - exfalso. specialize (T _ _ H). rewrite P2 in T. nra.
    - destruct (Z_lt_le_dec (-2) k) as [H'|H']; [|lia].
      exfalso. specialize (T _ _ H'). rewrite P2 in T. nra. }
  rewrite Hd. replace (powerRZ 10 (-2)) with (/ 100) by (unfold powerRZ; change (Pos.to_nat 2) with 2%nat; unfold pow; field).
  intro Hc. 
  assert (Hz : IZR (Int_part (1000005 / 10000 / / 100 + / 2)) * 100 = 1000005).
  { lra. }
  rewrite <- mult_IZR in Hz. apply eq_IZR in Hz. lia.
Qed.

(** A unit of length of 2 of some base is read exactly. *)
Example C55_example : nearest [1] 2 = Ok 2.
Proof.
  destruct (nearest [1] 2) as [v|e] eqn:E; [|discriminate].
  destruct (C55_nearest_unit [1] 2 v) as (c & [<-|[]] & _ & _ & _ & H); auto; [repeat constructor; lra | lra|].
  f_equal. apply (H 20000%Z (-4)%Z); [lia|].
  unfold powerRZ. change (Pos.to_nat 4) with 4%nat. unfold pow. field.
Qed.

(** C56.  Generated smoothing lengths are twice the mean spacing: [n] cells of half that
    size fill the box. *)
Theorem C56_smoothing_lengths : forall box dimension n hs,
  smoothing_lengths box dimension n = Ok hs ->
  Forall (fun x => 0 < x) box -> (0 < n)%Z -> (0 < dimension)%Z ->
  zlen hs = n
  /\ exists side, Forall (fun x => x = side) box
     /\ Forall (fun h => IZR n * Rpower (h / 2) (IZR dimension) = Rpower side (IZR dimension)) hs.
Proof.
  intros box dimension n hs H Hb Hn Hd. unfold smoothing_lengths in H.
  destruct box as [|b t]; [discriminate|].
  destruct (forallb (Reqb b) t) eqn:E; cbn [negb] in H; [|discriminate]. inversion H; subst hs. clear H.
  split; [unfold zlen; rewrite map_length, repeat_length; lia|].
  exists b. split.
  - constructor; [reflexivity|]. apply Forall_forall. intros x Hx. rewrite forallb_forall in E.
    specialize (E _ Hx). apply Reqb_true in E. auto.
  - apply Forall_forall. intros h Hh. apply in_map_iff in Hh. destruct Hh as (o & <- & Ho).
    apply repeat_spec in Ho. subst o. inversion Hb; subst.
    replace (2 * (b / Rpower (IZR n) (1 / IZR dimension)) * 1 / 2)
      with (b / Rpower (IZR n) (1 / IZR dimension)) by (field; apply Rpower_nz).
    rewrite Rmult_comm. apply spacing; auto; apply IZR_lt; auto.
Qed.

(** Eight particles in a cube of side 4: the lengths are 4, twice the spacing of 2. *)
Example C56_example : exists hs, smoothing_lengths [4; 4; 4] 3 8 = Ok hs /\ zlen hs = 8%Z
  /\ Forall (fun h => 8 * Rpower (h / 2) 3 = Rpower 4 3) hs.
Proof.
  destruct (smoothing_lengths [4; 4; 4] 3 8) as [hs|e] eqn:E.
  - exists hs. split; [reflexivity|].
    destruct (C56_smoothing_lengths _ _ _ _ E) as (A & side & B & C);
      [repeat constructor; lra | lia | lia|].
    inversion B; subst. auto.
  - exfalso. unfold smoothing_lengths in E. cbn -[Reqb] in E. rewrite Reqb_refl in E. discriminate.
Qed.

Theorem C56_unequal_sides_rejected : forall box dimension n,
  (exists x y, In x box /\ In y box /\ x <> y) ->
  smoothing_lengths box dimension n = Err ValueError.
Proof.
  intros box dimension n (x & y & Hx & Hy & Hne). destruct box as [|b t]; [destruct Hx|].
  unfold smoothing_lengths. destruct (forallb (Reqb b) t) eqn:E; [|reflexivity].
  exfalso. apply Hne. rewrite forallb_forall in E.
  assert (A : forall z, In z (b :: t) -> z = b).
  { intros z [<-|Hz]; [reflexivity|]. specialize (E _ Hz). apply Reqb_true in E. auto. }
  rewrite (A _ Hx), (A _ Hy). reflexivity.
Qed.

Print Assumptions C31_ids_consecutive.
Print Assumptions C31_type_order.
Print Assumptions C32_written_ids_distinct.
Print Assumptions C32_duplicates_rejected.
Print Assumptions C32_distinct_accepted.
Print Assumptions C32_given_ids_written.
Print Assumptions C33_read_back.
Print Assumptions C33_zero_exponent_refuted.
Print Assumptions C52_state_at_write.
Print Assumptions C52_second_writer_refuted.
Print Assumptions C52_converted_later_refuted.
Print Assumptions C53_box_read_back.
Print Assumptions C53_box_is_comoving.
Print Assumptions C53_physical_box_refuted.
Print Assumptions C54_header_counts.
Print Assumptions C54_fields_of_groups.
Print Assumptions C54_empty_type_fails.
Print Assumptions C54_incomplete_causes.
Print Assumptions C55_nearest_unit.
Print Assumptions C55_rounding_loses_figures.
Print Assumptions C56_smoothing_lengths.
Print Assumptions C56_unequal_sides_rejected.

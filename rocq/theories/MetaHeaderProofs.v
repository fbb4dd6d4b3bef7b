(** Proofs about the values taken from the header. *)
From Coq Require Import String Ascii List Arith ZArith QArith Bool Lia.
From Verif Require Import Base BaseLemmas NamesModel NamesSpec NamesProofs SubsetModel MetaModel MetaSpec MetaProofs.
Import ListNotations.
Open Scope nat_scope.

Section WithParams.
Variable text_error : pyerr.
Variable is_date : name -> bool.

(** All assignments that come from the header, in order. *)
Definition all_parts f singles arrays tables strings date v : list (name * mval) :=
  singles ++ scale_log singles ++ arrays ++ tables ++ strings ++ date ++ radiation f
  ++ number_log v ++ [(txt "gas_gamma", gas_gamma (Some (raw f "HydroScheme")))].

(** An object, or one under construction, after [postprocess_header]. *)
Definition built (f : mfile) (m : list (name * mval)) : Prop :=
  exists maps post rest,
    m = get_metadata f ++ maps ++ post ++ rest
    /\ postprocess_header text_error is_date f (get_metadata f ++ maps) = Ok post
    /\ set_aside maps /\ set_aside rest.

Lemma parts : forall f m h, built f m -> header_is f h ->
  exists singles arrays tables strings date v,
     unpack_singles (Some h) = Ok singles
     /\ unpack_arrays text_error (Some h) (the_scale singles) = Ok arrays
     /\ concat_ok (map (unpack_mass_table (Some h)) header_unpack_mass_tables) = Ok tables
     /\ concat_ok (map (unpack_string (Some h)) header_unpack_string) = Ok strings
     /\ unpack_date is_date (Some h) = Ok date
     /\ dict_get arrays (txt "num_part") = Some (VHeader v)
     /\ forall n, other n = false -> dict_get m n = dict_get (all_parts f singles arrays tables strings date v) n.
Proof.
  intros f m h R H. destruct R as (maps & post & rest & -> & P & M & N).
  apply (post_iff text_error is_date f maps h post M H) in P.
  destruct P as (s & a & t & st & d & v & P1 & P2 & P3 & P4 & P5 & P6 & ->).
  exists s, a, t, st, d, v. do 6 (split; [assumption|]). intros n O.
  fold (all_parts f s a t st d v). rewrite app_assoc, (dict_get_app _ (get_metadata f ++ maps)), (dict_get_app _ (all_parts f s a t st d v)).
  rewrite (aside_none _ _ N (or_introl O)). rewrite (log_none _ _ _ M O).
  destruct (dict_get (all_parts f s a t st d v) n); reflexivity.
Qed.

Lemma no_header : forall f m, dict_get (mf_groups f) (txt "Header") = None -> ~ built f m.
Proof.
  intros f m H R. destruct R as (maps & post & rest & _ & P & M & _).
  unfold postprocess_header in P. rewrite (raw_get f maps (txt "header") M) in P by reflexivity.
  change (dict_get (get_metadata f) (txt "header")) with (Some (raw f "Header")) in P.
  unfold raw in P. rewrite H in P. discriminate.
Qed.

(** ** Singles *)

Lemma singles_iff : forall h s, unpack_singles (Some h) = Ok s <->
  exists r1 r2 r3 r4,
    unpack_single (Some h) (txt "Time", [(txt "time", Some DTime); (txt "t", Some DTime)]) = Ok r1
    /\ unpack_single (Some h) (txt "Dimension", [(txt "dimension", None)]) = Ok r2
    /\ unpack_single (Some h) (txt "Redshift", [(txt "redshift", None); (txt "z", None)]) = Ok r3
    /\ unpack_single (Some h) (txt "Scale-factor", [(txt "scale_factor", None)]) = Ok r4
    /\ s = r1 ++ r2 ++ r3 ++ r4.
Proof.
  intros h s. unfold unpack_singles, header_unpack_single_float. cbn [map].
  rewrite concat_ok_cons. setoid_rewrite concat_ok_cons. setoid_rewrite concat_ok_cons.
  setoid_rewrite concat_ok_cons. setoid_rewrite concat_ok_nil. split.
  - intros (a & ? & A & (b & ? & B & (c & ? & C & (d & ? & D & -> & ->) & ->) & ->) & ->).
    exists a, b, c, d. rewrite app_nil_r. auto.
  - intros (a & b & c & d & A & B & C & D & ->).
    exists a, (b ++ c ++ d). split; [exact A|]. split; [|reflexivity].
    exists b, (c ++ d). split; [exact B|]. split; [|reflexivity].
    exists c, d. split; [exact C|]. split; [|reflexivity].
    exists d, []. split; [exact D|]. split; [reflexivity|]. rewrite app_nil_r. reflexivity.
Qed.

(** A field without a unit: it is there exactly when the header has it. *)
Definition plain_single (h : dict) (field : name) : option mval :=
  match dict_get h field with Some v => item_at v 0 | None => None end.

Lemma single_names_of : forall h fld nms r, unpack_single (Some h) (fld, nms) = Ok r ->
  forall n, in_names n (map fst nms) = false -> dict_get r n = None.
Proof.
  intros h fld nms r H n E. destruct (single_spec _ _ _ H) as (_ & N). cbn [fst snd] in N.
  apply dict_get_none. intros kv I F. subst n. specialize (N _ I). apply in_names_iff in N. congruence.
Qed.

Lemma single_plain1 : forall h fld n r, unpack_single (Some h) (fld, [(n, None)]) = Ok r ->
  dict_get r n = plain_single h fld.
Proof.
  intros h fld n r H. unfold unpack_single, look in H. cbn [bind fst snd] in H. unfold plain_single.
  destruct (dict_get h fld) as [v|]; [|injection H as <-; reflexivity].
  cbn [map all_ok fst snd] in H. unfold first_item in H. destruct (item_at v 0) as [x|]; [|discriminate].
  cbn in H. injection H as <-. cbn. replace (name_eqb n n) with true; [reflexivity|].
  symmetry. apply name_eqb_iff. reflexivity.
Qed.

Lemma redshift_get : forall h r,
  unpack_single (Some h) (txt "Redshift", [(txt "redshift", None); (txt "z", None)]) = Ok r ->
  dict_get r (txt "redshift") = plain_single h (txt "Redshift")
  /\ dict_get r (txt "z") = plain_single h (txt "Redshift").
Proof.
  intros h r H. unfold unpack_single, look in H. cbn [bind fst snd] in H. unfold plain_single.
  destruct (dict_get h (txt "Redshift")) as [v|]; [|injection H as <-; split; reflexivity].
  cbn [map all_ok fst snd] in H. unfold first_item in H. destruct (item_at v 0) as [x|]; [|discriminate].
  cbn [bind] in H. injection H as <-. split; reflexivity.
Qed.

Definition time_single (h : dict) : option mval :=
  match dict_get h (txt "Time") with
  | Some v => match item_at v 0 with Some (VNum x) => Some (VUnit x DTime) | _ => None end
  | None => None
  end.

Lemma time_get : forall h r,
  unpack_single (Some h) (txt "Time", [(txt "time", Some DTime); (txt "t", Some DTime)]) = Ok r ->
  dict_get r (txt "time") = time_single h /\ dict_get r (txt "t") = time_single h.
Proof.
  intros h r H. unfold unpack_single, look in H. cbn [bind fst snd] in H. unfold time_single.
  destruct (dict_get h (txt "Time")) as [v|]; [|injection H as <-; split; reflexivity].
  cbn [map all_ok fst snd] in H. unfold first_item in H. destruct (item_at v 0) as [x|]; [|discriminate].
  cbn [bind] in H. destruct x; try discriminate. cbn [bind quantity] in H. injection H as <-. split; reflexivity.
Qed.

Ltac close := cbn iota; repeat match goal with |- context[match ?e with Some _ => _ | None => _ end] =>
  (lazymatch e with context[match _ with _ => _ end] => fail | _ => destruct e; cbn iota end) end; try reflexivity.

Lemma singles_get : forall h s, unpack_singles (Some h) = Ok s ->
  dict_get s (txt "time") = time_single h /\ dict_get s (txt "t") = time_single h
  /\ dict_get s (txt "dimension") = plain_single h (txt "Dimension")
  /\ dict_get s (txt "redshift") = plain_single h (txt "Redshift")
  /\ dict_get s (txt "z") = plain_single h (txt "Redshift")
  /\ dict_get s (txt "scale_factor") = plain_single h (txt "Scale-factor").
Proof.
  intros h s H. apply singles_iff in H. destruct H as (r1 & r2 & r3 & r4 & H1 & H2 & H3 & H4 & ->).
  pose proof (time_get _ _ H1) as (T1 & T2). pose proof (redshift_get _ _ H3) as (Z1 & Z2).
  pose proof (single_plain1 _ _ _ _ H2) as D. pose proof (single_plain1 _ _ _ _ H4) as A.
  pose proof (single_names_of _ _ _ _ H1) as N1. pose proof (single_names_of _ _ _ _ H2) as N2.
  pose proof (single_names_of _ _ _ _ H3) as N3. pose proof (single_names_of _ _ _ _ H4) as N4.
  repeat split; rewrite !dict_get_app.
  - rewrite (N4 (txt "time")), (N3 (txt "time")), (N2 (txt "time")) by reflexivity. exact T1.
  - rewrite (N4 (txt "t")), (N3 (txt "t")), (N2 (txt "t")) by reflexivity. exact T2.
  - rewrite (N4 (txt "dimension")), (N3 (txt "dimension")), (N1 (txt "dimension")) by reflexivity.
    rewrite D. close.
  - rewrite (N4 (txt "redshift")), (N2 (txt "redshift")), (N1 (txt "redshift")) by reflexivity.
    rewrite Z1. close.
  - rewrite (N4 (txt "z")), (N2 (txt "z")), (N1 (txt "z")) by reflexivity.
    rewrite Z2. close.
  - rewrite (N3 (txt "scale_factor")), (N2 (txt "scale_factor")), (N1 (txt "scale_factor")) by reflexivity.
    rewrite A. close.
Qed.

(** ** Lookups in all parts *)

Lemma radiation_within : forall f, within (radiation f) ["photon_group_edges"; "reduced_lightspeed"]%string.
Proof. intros f kv [<-|[<-|[]]]; cbn; auto. Qed.

Lemma gamma_within : forall v, within [(txt "gas_gamma", v)] ["gas_gamma"]%string.
Proof. intros v kv [<-|[]]. cbn. auto. Qed.

Ltac drop_parts S1 S2 S3 S4 S5 :=
  unfold all_parts; rewrite !dict_get_app;
  try rewrite (within_none _ _ _ (singles_within _ _ S1)) by (vm_compute; reflexivity);
  match goal with |- context[dict_get (scale_log ?q) ?n] =>
    try rewrite (within_none (scale_log q) _ n (scale_log_within q)) by (vm_compute; reflexivity) end;
  try rewrite (within_none _ _ _ (arrays_within _ _ _ _ S2)) by (vm_compute; reflexivity);
  try rewrite (within_none _ _ _ (tables_within _ _ S3)) by (vm_compute; reflexivity);
  try rewrite (within_none _ _ _ (strings_within _ _ S4)) by (vm_compute; reflexivity);
  try rewrite (within_none _ _ _ (date_within _ _ _ S5)) by (vm_compute; reflexivity);
  try rewrite (within_none _ _ _ (numbers_within _)) by (vm_compute; reflexivity);
  try rewrite (within_none _ _ _ (radiation_within _)) by (vm_compute; reflexivity);
  try rewrite (within_none _ _ _ (gamma_within _)) by (vm_compute; reflexivity); cbn iota.

Ltac start R H :=
  destruct (parts _ _ _ R H) as (s & a & t & st & d & v & S1 & S2 & S3 & S4 & S5 & S6 & G).

Lemma get_time : forall f m h, built f m -> header_is f h ->
  dict_get m (txt "time") = time_single h /\ dict_get m (txt "t") = time_single h
  /\ dict_get m (txt "dimension") = plain_single h (txt "Dimension")
  /\ dict_get m (txt "redshift") = plain_single h (txt "Redshift")
  /\ dict_get m (txt "z") = plain_single h (txt "Redshift").
Proof.
  intros f m h R H. start R H. destruct (singles_get _ _ S1) as (E1 & E2 & E3 & E4 & E5 & E6).
  repeat split; rewrite G by (vm_compute; reflexivity); drop_parts S1 S2 S3 S4 S5; assumption.
Qed.

Definition scale_of (h : dict) : mval :=
  match plain_single h (txt "Scale-factor") with Some v => v | None => VNum one end.

Lemma the_scale_is : forall h s, unpack_singles (Some h) = Ok s -> the_scale s = scale_of h.
Proof.
  intros h s H. destruct (singles_get _ _ H) as (_ & _ & _ & _ & _ & E). unfold the_scale, scale_of.
  rewrite E. reflexivity.
Qed.

Lemma get_scale : forall f m h, built f m -> header_is f h ->
  dict_get m (txt "a") = Some (scale_of h) /\ dict_get m (txt "scale_factor") = Some (scale_of h).
Proof.
  intros f m h R H. start R H. pose proof (singles_get _ _ S1) as (_ & _ & _ & _ & _ & E).
  split; rewrite G by (vm_compute; reflexivity).
  - drop_parts S1 S2 S3 S4 S5. unfold scale_log, scale_of. rewrite E.
    destruct (plain_single h (txt "Scale-factor")); reflexivity.
  - unfold all_parts. rewrite !dict_get_app.
    rewrite (within_none _ _ _ (arrays_within _ _ _ _ S2)) by (vm_compute; reflexivity).
    rewrite (within_none _ _ _ (tables_within _ _ S3)) by (vm_compute; reflexivity).
    rewrite (within_none _ _ _ (strings_within _ _ S4)) by (vm_compute; reflexivity).
    rewrite (within_none _ _ _ (date_within _ _ _ S5)) by (vm_compute; reflexivity).
    rewrite (within_none _ _ _ (numbers_within _)) by (vm_compute; reflexivity).
    rewrite (within_none _ _ _ (radiation_within _)) by (vm_compute; reflexivity).
    rewrite (within_none _ _ _ (gamma_within _)) by (vm_compute; reflexivity). cbn iota.
    unfold scale_log, scale_of. rewrite E. destruct (plain_single h (txt "Scale-factor")); reflexivity.
Qed.

(** ** Arrays *)

Lemma array_get : forall h sc r fld nm, unpack_arrays text_error (Some h) sc = Ok r ->
  In (fld, nm) header_unpack_arrays ->
  exists s, unpack_array text_error (Some h) sc (fld, nm) = Ok s /\ dict_get r nm = dict_get s nm.
Proof.
  intros h sc r fld nm H I. eapply concat_field; [|exact H| |exact I].
  - intros fn s kv E J. apply (array_name _ _ _ _ _ _ E J).
  - repeat constructor; cbn; intuition discriminate.
Qed.

Lemma plain_array_get : forall h sc r fld nm, unpack_arrays text_error (Some h) sc = Ok r ->
  In (fld, nm) header_unpack_arrays -> name_eqb nm (txt "boxsize") = false ->
  dict_get r nm = option_map VHeader (dict_get h fld).
Proof.
  intros h sc r fld nm H I E. destruct (array_get _ _ _ _ _ H I) as (s & U & ->).
  apply array_spec in U. cbn [fst snd] in U. destruct (dict_get h fld) as [v|]; [|subst; reflexivity].
  rewrite E in U. subst s. cbn [dict_get option_map].
  replace (name_eqb nm nm) with true; [reflexivity|]. symmetry. apply name_eqb_iff. reflexivity.
Qed.

Definition box_of (sc : mval) (v : hval) : option mval :=
  match v with
  | HArr l => Some (VCosmo l false DLength sc one true true)
  | HNum x => Some (VCosmo [x] true DLength sc one true true)
  | _ => None
  end.

Lemma box_get : forall h sc r, unpack_arrays text_error (Some h) sc = Ok r ->
  dict_get r (txt "boxsize") = match dict_get h (txt "BoxSize") with Some v => box_of sc v | None => None end.
Proof.
  intros h sc r H. destruct (array_get _ _ _ (txt "BoxSize") (txt "boxsize") H) as (s & U & ->); [left; reflexivity|].
  apply array_spec in U. cbn [fst snd] in U. destruct (dict_get h (txt "BoxSize")) as [v|]; [|subst; reflexivity].
  change (name_eqb (txt "boxsize") (txt "boxsize")) with true in U. cbn iota in U.
  destruct U as (l & b & [(-> & ->)|(x & -> & -> & ->)] & ->); reflexivity.
Qed.

Lemma get_arrays : forall f m h, built f m -> header_is f h ->
  dict_get m (txt "boxsize") = match dict_get h (txt "BoxSize") with Some v => box_of (scale_of h) v | None => None end
  /\ dict_get m (txt "num_part") = option_map VHeader (dict_get h (txt "NumPart_ThisFile"))
  /\ dict_get m (txt "num_group") = option_map VHeader (dict_get h (txt "NumGroup_ThisFile"))
  /\ dict_get m (txt "num_subhalo") = option_map VHeader (dict_get h (txt "NumSubhalos_ThisFile"))
  /\ dict_get m (txt "has_type") = option_map VHeader (dict_get h (txt "CanHaveTypes"))
  /\ dict_get m (txt "num_files_per_snapshot") = option_map VHeader (dict_get h (txt "NumFilesPerSnapshot"))
  /\ dict_get m (txt "subhalo_types") = option_map VHeader (dict_get h (txt "SubhaloTypes")).
Proof.
  intros f m h R H. start R H. rewrite (the_scale_is _ _ S1) in S2.
  split; [|repeat split]; rewrite G by (vm_compute; reflexivity); drop_parts S1 S2 S3 S4 S5.
  - rewrite (box_get _ _ _ S2). close.
  - rewrite (plain_array_get _ _ _ (txt "NumPart_ThisFile") _ S2) by (cbn; tauto || reflexivity). close.
  - rewrite (plain_array_get _ _ _ (txt "NumGroup_ThisFile") _ S2) by (cbn; tauto || reflexivity). close.
  - rewrite (plain_array_get _ _ _ (txt "NumSubhalos_ThisFile") _ S2) by (cbn; tauto || reflexivity). close.
  - rewrite (plain_array_get _ _ _ (txt "CanHaveTypes") _ S2) by (cbn; tauto || reflexivity). close.
  - rewrite (plain_array_get _ _ _ (txt "NumFilesPerSnapshot") _ S2) by (cbn; tauto || reflexivity). close.
  - rewrite (plain_array_get _ _ _ (txt "SubhaloTypes") _ S2) by (cbn; tauto || reflexivity). close.
Qed.

(** ** Tables, texts, dates, numbers *)

Lemma table_get : forall h r fld nm,
  concat_ok (map (unpack_mass_table (Some h)) header_unpack_mass_tables) = Ok r ->
  In (fld, nm) header_unpack_mass_tables ->
  exists v, mass_table (match dict_get h fld with Some x => x | None => HArr (repeat zero 8) end) = Ok v
            /\ dict_get r nm = Some v.
Proof.
  intros h r fld nm H I. destruct (concat_field (unpack_mass_table (Some h)) header_unpack_mass_tables r fld nm) as (s & U & E).
  - intros fn s kv U J. unfold unpack_mass_table, look in U. cbn [bind] in U.
    destruct (mass_table _); [|discriminate]. injection U as <-. destruct J as [<-|[]]. reflexivity.
  - exact H.
  - repeat constructor; cbn; intuition discriminate.
  - exact I.
  - unfold unpack_mass_table, look in U. cbn [bind fst snd] in U.
    change (length particle_name_underscores) with 8 in U.
    destruct (mass_table _) as [v|]; [|discriminate]. injection U as <-. exists v. split; [reflexivity|].
    rewrite E. cbn [dict_get]. replace (name_eqb nm nm) with true; [reflexivity|].
    symmetry. apply name_eqb_iff. reflexivity.
Qed.

Lemma string_get : forall h r fld nm,
  concat_ok (map (unpack_string (Some h)) header_unpack_string) = Ok r -> In (fld, nm) header_unpack_string ->
  dict_get r nm = Some (match dict_get h fld with Some x => decoded x | None => VText [] end).
Proof.
  intros h r fld nm H I. destruct (concat_field (unpack_string (Some h)) header_unpack_string r fld nm) as (s & U & E).
  - intros fn s kv U J. unfold unpack_string, look in U. cbn [bind] in U.
    injection U as <-. destruct J as [<-|[]]. reflexivity.
  - exact H.
  - repeat constructor; cbn; intuition discriminate.
  - exact I.
  - unfold unpack_string, look in U. cbn [bind fst snd] in U. injection U as <-.
    rewrite E. cbn [dict_get]. replace (name_eqb nm nm) with true; [reflexivity|].
    symmetry. apply name_eqb_iff. reflexivity.
Qed.

(** The masses by type: those of a table of numbers. *)
Definition masses (l : list Q) : mval :=
  VMasses (map (fun ip => (snd (snd ip), option_map (fun x => (x, DMass)) (nth_error l (fst ip))))
               (combine (seq 0 8) particle_name_underscores)).

Lemma mass_table_numbers : forall l, mass_table (HArr l) = Ok (masses l).
Proof.
  intro l. unfold mass_table, masses.
  assert (E : all_ok (map (fun i => match item_at (HArr l) i with
                                | Some v => do q <- quantity DMass v;
                                            Ok (match q with VUnit x d => Some (x, d) | _ => None end)
                                | None => Ok None
                                end) (seq 0 (length particle_name_underscores)))
            = Ok (map (fun i => option_map (fun x => (x, DMass)) (nth_error l i)) (seq 0 8))).
  { apply all_ok_spec. rewrite map_map. apply map_ext. intro i. cbn [item_at].
    destruct (nth_error l i); reflexivity. }
  rewrite E. reflexivity.
Qed.

Lemma get_tables : forall f m h, built f m -> header_is f h ->
  (forall l, dict_get h (txt "MassTable") = Some (HArr l) -> dict_get m (txt "mass_table") = Some (masses l))
  /\ (dict_get h (txt "MassTable") = None -> dict_get m (txt "mass_table") = Some (masses (repeat zero 8)))
  /\ (forall l, dict_get h (txt "InitialMassTable") = Some (HArr l) -> dict_get m (txt "initial_mass_table") = Some (masses l))
  /\ (dict_get h (txt "InitialMassTable") = None -> dict_get m (txt "initial_mass_table") = Some (masses (repeat zero 8))).
Proof.
  intros f m h R H. start R H.
  destruct (table_get _ _ (txt "MassTable") (txt "mass_table") S3) as (v1 & M1 & D1); [left; reflexivity|].
  destruct (table_get _ _ (txt "InitialMassTable") (txt "initial_mass_table") S3) as (v2 & M2 & D2); [right; left; reflexivity|].
  assert (G1 : dict_get m (txt "mass_table") = Some v1).
  { rewrite G by (vm_compute; reflexivity). drop_parts S1 S2 S3 S4 S5. rewrite D1. reflexivity. }
  assert (G2 : dict_get m (txt "initial_mass_table") = Some v2).
  { rewrite G by (vm_compute; reflexivity). drop_parts S1 S2 S3 S4 S5. rewrite D2. reflexivity. }
  rewrite G1, G2.
  split; [|split; [|split]].
  - intros l E. rewrite E, mass_table_numbers in M1. injection M1 as <-. reflexivity.
  - intros E. rewrite E, mass_table_numbers in M1. injection M1 as <-. reflexivity.
  - intros l E. rewrite E, mass_table_numbers in M2. injection M2 as <-. reflexivity.
  - intros E. rewrite E, mass_table_numbers in M2. injection M2 as <-. reflexivity.
Qed.

Definition text_of (o : option hval) : mval := match o with Some x => decoded x | None => VText [] end.

Lemma get_strings : forall f m h, built f m -> header_is f h ->
  dict_get m (txt "run_name") = Some (text_of (dict_get h (txt "RunName")))
  /\ dict_get m (txt "select_output") = Some (text_of (dict_get h (txt "SelectOutput")))
  /\ dict_get m (txt "output_type") = Some (text_of (dict_get h (txt "OutputType")))
  /\ dict_get m (txt "system_name") = Some (text_of (dict_get h (txt "System"))).
Proof.
  intros f m h R H. start R H.
  split; [|split; [|split]]; rewrite G by (vm_compute; reflexivity); drop_parts S1 S2 S3 S4 S5.
  - rewrite (string_get _ _ (txt "RunName") _ S4) by (cbn; tauto). reflexivity.
  - rewrite (string_get _ _ (txt "SelectOutput") _ S4) by (cbn; tauto). reflexivity.
  - rewrite (string_get _ _ (txt "OutputType") _ S4) by (cbn; tauto). reflexivity.
  - rewrite (string_get _ _ (txt "System") _ S4) by (cbn; tauto). reflexivity.
Qed.

Definition date_value (s : name) : mval := if is_date s then VDate s else VText s.

Lemma get_date : forall f m h, built f m -> header_is f h ->
  (forall s, dict_get h (txt "SnapshotDate") = Some (HStr s) \/ dict_get h (txt "SnapshotDate") = Some (HBytes s) ->
     dict_get m (txt "snapshot_date") = Some (date_value s))
  /\ (forall s, dict_get h (txt "SnapshotDate") = None ->
       dict_get h (txt "Snapshot date") = Some (HStr s) \/ dict_get h (txt "Snapshot date") = Some (HBytes s) ->
       dict_get m (txt "snapshot_date") = Some (date_value s))
  /\ (dict_get h (txt "SnapshotDate") = None -> dict_get h (txt "Snapshot date") = None ->
       dict_get m (txt "snapshot_date") = Some (date_value [])).
Proof.
  intros f m h R H. start R H.
  assert (E : dict_get m (txt "snapshot_date") = dict_get d (txt "snapshot_date")).
  { rewrite G by (vm_compute; reflexivity). drop_parts S1 S2 S3 S4 S5. close. }
  rewrite E. unfold unpack_date, look in S5. cbn [bind] in S5.
  split; [|split].
  - intros q [F|F]; rewrite F in S5; cbn [decoded] in S5; injection S5 as <-; reflexivity.
  - intros q F [F'|F']; rewrite F, F' in S5; cbn [decoded] in S5; injection S5 as <-; reflexivity.
  - intros F F'. rewrite F, F' in S5. cbn [decoded] in S5. injection S5 as <-. reflexivity.
Qed.

Lemma get_numbers : forall f m h, built f m -> header_is f h ->
  exists v, dict_get h (txt "NumPart_ThisFile") = Some v
  /\ forall i n, nth_error type_names i = Some n ->
       dict_get m (txt "n_" ++ txt n) = Some (match item_at v i with Some w => w | None => VNum zero end).
Proof.
  intros f m h R H. start R H. exists v. split.
  - rewrite (plain_array_get _ _ _ (txt "NumPart_ThisFile") _ S2) in S6 by (cbn; tauto || reflexivity).
    destruct (dict_get h (txt "NumPart_ThisFile")); [injection S6 as <-; reflexivity|discriminate].
  - intros i n E. do 8 (destruct i as [|i];
      [injection E as <-; rewrite G by (vm_compute; reflexivity); unfold all_parts; rewrite !dict_get_app;
       rewrite (within_none _ _ _ (gamma_within _)) by (vm_compute; reflexivity); reflexivity|]).
    destruct i; discriminate.
Qed.

Lemma get_radiation : forall f m h, built f m -> header_is f h ->
  dict_get m (txt "photon_group_edges") = Some (match mf_edges f with Some l => VEdges l | None => VNone end)
  /\ dict_get m (txt "reduced_lightspeed") = Some (match mf_speed f with Some x => VSpeed x | None => VNone end)
  /\ dict_get m (txt "gas_gamma") = Some (gas_gamma (Some (raw f "HydroScheme"))).
Proof.
  intros f m h R H. start R H.
  split; [|split]; rewrite G by (vm_compute; reflexivity); drop_parts S1 S2 S3 S4 S5; reflexivity.
Qed.

Lemma get_raw : forall f m, built f m -> forall group attr,
  In (txt group, txt attr) metadata_fields_to_read -> dict_get m (txt attr) = Some (raw f group).
Proof.
  intros f m R group attr I.
  destruct (dict_get (mf_groups f) (txt "Header")) as [g|] eqn:HD.
  2:{ destruct (no_header f m HD R). }
  destruct R as (maps & post & rest & -> & P & M & N).
  assert (H : header_is f (gi_attrs g)) by (exists g; auto).
  apply (post_iff text_error is_date f maps _ post M H) in P.
  destruct P as (s & a & t & st & d & v & S1 & S2 & S3 & S4 & S5 & S6 & ->).
  fold (all_parts f s a t st d v).
  assert (J : in_names (txt attr) (map snd metadata_fields_to_read) = true).
  { apply in_names_iff. apply (in_map snd) in I. exact I. }
  rewrite app_assoc, (dict_get_app _ (get_metadata f ++ maps)), (dict_get_app _ (all_parts f s a t st d v)).
  rewrite (aside_none _ _ N (or_intror J)), (raw_get _ _ _ M J).
  assert (Z : dict_get (all_parts f s a t st d v) (txt attr) = None).
  { unfold metadata_fields_to_read in I. cbn [In] in I. clear J.
    repeat (destruct I as [I|I]; [injection I as _ E2; rewrite <- E2; drop_parts S1 S2 S3 S4 S5; reflexivity|]). destruct I. }
  rewrite Z.
  assert (K : dict_get (get_metadata f) (txt attr) = Some (raw f group)).
  { unfold metadata_fields_to_read in I. cbn [In] in I.
    repeat (destruct I as [I|I]; [injection I as E1 E2; unfold raw; rewrite <- E1, <- E2; reflexivity|]). destruct I. }
  exact K.
Qed.

(** * Which headers can be unpacked *)

Lemma item0_indexable : forall v, indexable v <-> exists x, item_at v 0 = Some x.
Proof.
  intros v. destruct v as [[|]| |[|]|[|]|[|]]; cbn; split; intro H; try (destruct H; discriminate);
    try (exfalso; apply H; reflexivity); eauto; discriminate.
Qed.

Lemma item0_numeric : forall v, numeric0 v <-> exists x, item_at v 0 = Some (VNum x).
Proof.
  intros v. destruct v as [[|]| |[|]|[|]|[|]]; cbn; split; intro H; try (destruct H; discriminate);
    try (exfalso; apply H; reflexivity); eauto; try discriminate; try destruct H.
Qed.

Lemma single_ok1 : forall h fld nms, nms <> [] -> (forall nd, In nd nms -> snd nd = None) ->
  ((exists r, unpack_single (Some h) (fld, nms) = Ok r) <-> forall v, dict_get h fld = Some v -> indexable v).
Proof.
  intros h fld nms NE NN. unfold unpack_single, look. cbn [bind fst snd].
  destruct (dict_get h fld) as [v|].
  - split.
    + intros (r & H) w E. injection E as <-. apply item0_indexable.
      destruct nms as [|nd nms]; [congruence|]. cbn [map all_ok] in H. unfold first_item in H.
      destruct (item_at v 0); [eauto|discriminate].
    + intro H. specialize (H v eq_refl). apply item0_indexable in H. destruct H as (x & E).
      exists (map (fun nd => (fst nd, x)) nms). apply all_ok_spec. rewrite map_map. apply map_ext_in.
      intros nd I. unfold first_item. rewrite E. cbn [bind]. rewrite (NN nd I). reflexivity.
  - split; [intros _ v E; discriminate|]. intros _. exists []. reflexivity.
Qed.

Lemma time_ok : forall h,
  (exists r, unpack_single (Some h) (txt "Time", [(txt "time", Some DTime); (txt "t", Some DTime)]) = Ok r)
  <-> forall v, dict_get h (txt "Time") = Some v -> numeric0 v.
Proof.
  intros h. unfold unpack_single, look. cbn [bind fst snd].
  destruct (dict_get h (txt "Time")) as [v|].
  - split.
    + intros (r & H) w E. injection E as <-. apply item0_numeric. cbn [map all_ok] in H. unfold first_item in H.
      destruct (item_at v 0) as [x|]; [|discriminate]. cbn [bind fst snd] in H.
      destruct x; try discriminate. eauto.
    + intro H. specialize (H v eq_refl). apply item0_numeric in H. destruct H as (x & E).
      cbn [map]. unfold first_item. rewrite E. cbn. eauto.
  - split; [intros _ v E; discriminate|]. intros _. exists []. reflexivity.
Qed.

Lemma concat_ok_each : forall A (l : list (res (list A))),
  (exists r, concat_ok l = Ok r) <-> forall x, In x l -> exists r, x = Ok r.
Proof.
  intros A. induction l as [|x l IH].
  - split; [intros _ x []|]. intros _. exists []. reflexivity.
  - split.
    + intros (r & H) y I. apply concat_ok_cons in H. destruct H as (a & b & Ha & Hb & _).
      destruct I as [<-|I]; [eauto|]. apply (proj1 IH (ex_intro _ b Hb) y I).
    + intro H. destruct (H x (or_introl eq_refl)) as (a & Ha).
      destruct (proj2 IH (fun y I => H y (or_intror I))) as (b & Hb).
      exists (a ++ b). apply concat_ok_cons. eauto.
Qed.

Lemma box_ok : forall h sc, (exists r, unpack_arrays text_error (Some h) sc = Ok r)
  <-> forall v, dict_get h (txt "BoxSize") = Some v -> is_numbers v.
Proof.
  intros h sc. unfold unpack_arrays. rewrite concat_ok_each. split.
  - intros H v E. destruct (H (unpack_array text_error (Some h) sc (txt "BoxSize", txt "boxsize"))) as (r & U).
    + left. reflexivity.
    + apply array_spec in U. cbn [fst snd] in U. rewrite E in U.
      change (name_eqb (txt "boxsize") (txt "boxsize")) with true in U. cbn iota in U.
      destruct U as (l & b & [(-> & _)|(x & -> & _)] & _); exact I.
  - intros H x I. apply in_map_iff in I. destruct I as (fn & <- & I). unfold unpack_array, look. cbn [bind].
    destruct (name_eqb (snd fn) (txt "boxsize")) eqn:E.
    + assert (F : fn = (txt "BoxSize", txt "boxsize")).
      { cbn [header_unpack_arrays In] in I. unfold header_unpack_arrays in I. cbn [In] in I.
        destruct I as [<-|I]; [reflexivity|]. exfalso.
        repeat (destruct I as [<-|I]; [vm_compute in E; discriminate|]). destruct I. }
      subst fn. cbn [fst snd]. destruct (dict_get h (txt "BoxSize")) as [v|]; [|eauto].
      specialize (H v eq_refl). destruct v; try destruct H; eauto.
    + destruct (dict_get h (fst fn)); eauto.
Qed.

Lemma mass_ok : forall v, (exists r, mass_table v = Ok r) <-> tabular v.
Proof.
  intro v. unfold mass_table.
  set (F := fun i => match item_at v i with
                     | Some w => do q <- quantity DMass w;
                                 Ok (match q with VUnit x d => Some (x, d) | _ => None end)
                     | None => Ok None
                     end).
  assert (A : (exists r, (do l <- all_ok (map F (seq 0 (length particle_name_underscores)));
                          Ok (VMasses (combine (map snd particle_name_underscores) l))) = Ok r)
              <-> forall i, i < 8 -> exists r, F i = Ok r).
  { split.
    - intros (r & H) i L. destruct (all_ok _) as [l|] eqn:E; [|discriminate]. apply all_ok_spec in E.
      assert (J : In (F i) (map F (seq 0 (length particle_name_underscores)))).
      { apply in_map. apply in_seq. cbn. lia. }
      rewrite E in J. apply in_map_iff in J. destruct J as (x & <- & _). eauto.
    - intro H. 
      assert (J : exists l, map F (seq 0 8) = map Ok l).
      { cbn [seq map].
        destruct (H 0) as (? & ->); [lia|]. destruct (H 1) as (? & ->); [lia|]. destruct (H 2) as (? & ->); [lia|].
        destruct (H 3) as (? & ->); [lia|]. destruct (H 4) as (? & ->); [lia|]. destruct (H 5) as (? & ->); [lia|].
        destruct (H 6) as (? & ->); [lia|]. destruct (H 7) as (? & ->); [lia|].
        eexists [_; _; _; _; _; _; _; _]. reflexivity. }
      destruct J as (l & J). apply all_ok_spec in J. change (length particle_name_underscores) with 8.
      rewrite J. cbn [bind]. eauto. }
  rewrite A. unfold F. clear A F. split.
  - intro H. destruct v as [l|x|s|s|l]; cbn; auto.
    + destruct s; [reflexivity|]. destruct (H 0 ltac:(lia)) as (r & E). discriminate.
    + destruct l; [reflexivity|]. destruct (H 0 ltac:(lia)) as (r & E). discriminate.
  - intros T i L. destruct v as [l|x|s|s|l]; cbn in T |- *.
    + destruct (nth_error l i); cbn; eauto.
    + eauto.
    + subst. destruct i; cbn; eauto.
    + destruct (nth_error s i); cbn; eauto.
    + subst. destruct i; cbn; eauto.
Qed.

Lemma tables_ok : forall h, (exists r, concat_ok (map (unpack_mass_table (Some h)) header_unpack_mass_tables) = Ok r)
  <-> if_there h "MassTable" tabular /\ if_there h "InitialMassTable" tabular.
Proof.
  intros h. rewrite concat_ok_each.
  assert (A : forall fld nm, (exists r, unpack_mass_table (Some h) (txt fld, nm) = Ok r) <-> if_there h fld tabular).
  { intros fld nm. unfold unpack_mass_table, look, if_there, has. cbn [bind fst snd].
    destruct (dict_get h (txt fld)) as [v|].
    - split.
      + intros (r & H) w E. injection E as <-. apply mass_ok. destruct (mass_table v); [eauto|discriminate].
      + intro H. specialize (H v eq_refl). apply mass_ok in H. destruct H as (r & ->). cbn. eauto.
    - split; [intros _ v E; discriminate|]. intros _. rewrite mass_table_numbers. cbn. eauto. }
  rewrite <- (A "MassTable"%string (txt "mass_table")), <- (A "InitialMassTable"%string (txt "initial_mass_table")).
  cbn [map header_unpack_mass_tables]. split.
  - intro H. split; apply H; cbn; auto.
  - intros (H1 & H2) x [<-|[<-|[]]]; assumption.
Qed.

Lemma strings_ok : forall h, exists r, concat_ok (map (unpack_string (Some h)) header_unpack_string) = Ok r.
Proof.
  intro h. apply concat_ok_each. intros x I. apply in_map_iff in I. destruct I as (fn & <- & _).
  unfold unpack_string, look. cbn [bind]. eauto.
Qed.

Lemma date_ok : forall h, (exists r, unpack_date is_date (Some h) = Ok r) <->
  if_there h "SnapshotDate" is_text /\ (missing h "SnapshotDate" -> if_there h "Snapshot date" is_text).
Proof.
  intros h. unfold unpack_date, look, if_there, has, missing. cbn [bind].
  destruct (dict_get h (txt "SnapshotDate")) as [v|].
  - split.
    + intros (r & H). split; [|discriminate]. intros w E. injection E as <-. destruct v; cbn in H |- *; try discriminate; auto.
    + intros (H & _). specialize (H v eq_refl). destruct v; try destruct H; cbn; eauto.
  - destruct (dict_get h (txt "Snapshot date")) as [v|].
    + split.
      * intros (r & H). split; [discriminate|]. intros _ w E. injection E as <-. destruct v; cbn in H |- *; try discriminate; auto.
      * intros (_ & H). specialize (H eq_refl v eq_refl). destruct v; try destruct H; cbn; eauto.
    + split; [split; intros; discriminate|]. intros _. cbn. eauto.
Qed.

Lemma post_ok : forall f maps h, set_aside maps -> header_is f h ->
  ((exists post, postprocess_header text_error is_date f (get_metadata f ++ maps) = Ok post) <-> header_ok h).
Proof.
  intros f maps h M H. split.
  - intros (post & P). apply (post_iff text_error is_date f maps h post M H) in P.
    destruct P as (s & a & t & st & d & v & S1 & S2 & S3 & S4 & S5 & S6 & _).
    pose proof (proj1 (singles_iff h s) S1) as (r1 & r2 & r3 & r4 & H1 & H2 & H3 & H4 & _).
    unfold header_ok, if_there, has.
    split; [apply time_ok; eauto|].
    split; [eapply single_ok1; [| |eauto]; [discriminate|intros nd [<-|[]]; reflexivity]|].
    split; [eapply single_ok1; [| |eauto]; [discriminate|intros nd [<-|[<-|[]]]; reflexivity]|].
    split; [eapply single_ok1; [| |eauto]; [discriminate|intros nd [<-|[]]; reflexivity]|].
    split; [eapply box_ok; eauto|].
    split; [apply tables_ok; eauto|]. split; [apply tables_ok; eauto|].
    split; [apply date_ok; eauto|]. split; [apply date_ok; eauto|].
    intro N. rewrite (plain_array_get _ _ _ (txt "NumPart_ThisFile") _ S2) in S6 by (cbn; tauto || reflexivity).
    unfold missing in N. rewrite N in S6. discriminate.
  - intros (T & D & Z & A & B & M1 & M2 & D1 & D2 & N).
    apply time_ok in T. destruct T as (r1 & T).
    apply (single_ok1 h (txt "Dimension") [(txt "dimension", None)]) in D;
      [|discriminate|intros nd [<-|[]]; reflexivity]. destruct D as (r2 & D).
    apply (single_ok1 h (txt "Redshift") [(txt "redshift", None); (txt "z", None)]) in Z;
      [|discriminate|intros nd [<-|[<-|[]]]; reflexivity]. destruct Z as (r3 & Z).
    apply (single_ok1 h (txt "Scale-factor") [(txt "scale_factor", None)]) in A;
      [|discriminate|intros nd [<-|[]]; reflexivity]. destruct A as (r4 & A).
    assert (S1 : unpack_singles (Some h) = Ok (r1 ++ r2 ++ r3 ++ r4)).
    { apply singles_iff. exists r1, r2, r3, r4. auto 6. }
    apply (proj2 (box_ok h (the_scale (r1 ++ r2 ++ r3 ++ r4)))) in B. destruct B as (a & B).
    destruct (proj2 (tables_ok h) (conj M1 M2)) as (t & M3).
    destruct (strings_ok h) as (st & ST). destruct (proj2 (date_ok h) (conj D1 D2)) as (d & D3).
    unfold missing in N. destruct (dict_get h (txt "NumPart_ThisFile")) as [v|] eqn:NP; [|congruence].
    eexists. apply (post_iff text_error is_date f maps h _ M H).
    exists (r1 ++ r2 ++ r3 ++ r4), a, t, st, d, v. do 5 (split; [assumption|]). split; [|reflexivity].
    rewrite (plain_array_get _ _ _ (txt "NumPart_ThisFile") _ B) by (cbn; tauto || reflexivity).
    rewrite NP. reflexivity.
Qed.
Variable cosmology_ok : dict -> res unit.

Lemma read_built : forall k f m, read_metadata text_error is_date cosmology_ok k f = Ok m -> built f m.
Proof. intros k f m H. apply (read_pieces _ _ _ _ _ _ H). Qed.
End WithParams.

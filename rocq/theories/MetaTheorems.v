(** Metadata objects: C77, C78, C79 and C80. *)
From Coq Require Import String Ascii List Arith ZArith QArith Bool Lia Sorting.Sorted Sorting.Permutation.
From Verif Require Import Base BaseLemmas NamesModel NamesSpec NamesProofs SubsetModel MetaModel MetaSpec MetaProofs MetaHeaderProofs
  MetaMapProofs MetaGroupProofs.
Import ListNotations.
Open Scope nat_scope.

Lemma item_iff : forall v i w, item_at v i = Some w <-> item_of v i w.
Proof.
  intros v i w. split.
  - intro H. destruct v; cbn [item_at] in H; try discriminate;
      match type of H with option_map _ (nth_error ?l i) = _ => destruct (nth_error l i) eqn:E; [|discriminate] end;
      injection H as <-; constructor; exact E.
  - intro H. destruct H as [l i x E|s i c E|s i c E|l i s E]; cbn [item_at]; rewrite E; reflexivity.
Qed.

(** * C77: the header *)

(** Time has a unit; it has two names. *)
Theorem C77_time : forall text_error is_date cosmology_ok k f h m,
  read_metadata text_error is_date cosmology_ok k f = Ok m -> header_is f h ->
  (forall v x, has h "Time" v -> item_of v 0 (VNum x) -> shows m "time" (VUnit x DTime) /\ shows m "t" (VUnit x DTime))
  /\ (missing h "Time" -> lacks m "time" /\ lacks m "t").
Proof.
  intros te d c k f h m R H. apply read_built in R. destruct (get_time _ _ _ _ _ R H) as (A & B & _).
  unfold time_single in A, B. unfold has, missing, shows, lacks. split.
  - intros v x E I. apply item_iff in I. rewrite E, I in A, B. auto.
  - intro E. rewrite E in A, B. auto.
Qed.

Theorem C77_singles : forall text_error is_date cosmology_ok k f h m,
  read_metadata text_error is_date cosmology_ok k f = Ok m -> header_is f h ->
  forall field attr, In (field, attr) [("Dimension", "dimension"); ("Redshift", "redshift"); ("Redshift", "z")]%string ->
  (forall v w, has h field v -> item_of v 0 w -> shows m attr w) /\ (missing h field -> lacks m attr).
Proof.
  intros te d c k f h m R H field attr I. apply read_built in R. destruct (get_time _ _ _ _ _ R H) as (_ & _ & A & B & C).
  unfold plain_single in A, B, C. unfold has, missing, shows, lacks.
  destruct I as [E|[E|[E|[]]]]; injection E as <- <-; (split; [intros v w F J; apply item_iff in J|intro F]).
  all: try rewrite F, J in A; try rewrite F, J in B; try rewrite F, J in C;
    try rewrite F in A; try rewrite F in B; try rewrite F in C; assumption.
Qed.

(** The scale factor is that of the header, or 1. *)
Theorem C77_scale_factor : forall text_error is_date cosmology_ok k f h m,
  read_metadata text_error is_date cosmology_ok k f = Ok m -> header_is f h ->
  (forall v w, has h "Scale-factor" v -> item_of v 0 w -> shows m "a" w /\ shows m "scale_factor" w)
  /\ (missing h "Scale-factor" -> shows m "a" (VNum 1%Q) /\ shows m "scale_factor" (VNum 1%Q)).
Proof.
  intros te d c k f h m R H. apply read_built in R. destruct (get_scale _ _ _ _ _ R H) as (A & B).
  unfold scale_of, plain_single in A, B. unfold has, missing, shows. split.
  - intros v w E I. apply item_iff in I. rewrite E, I in A, B. auto.
  - intro E. rewrite E in A, B. auto.
Qed.

(** The box size is a comoving length, with the scale factor of the object. *)
Theorem C77_box_size : forall text_error is_date cosmology_ok k f h m,
  read_metadata text_error is_date cosmology_ok k f = Ok m -> header_is f h ->
  (forall l a, has h "BoxSize" (HArr l) -> shows m "a" a -> shows m "boxsize" (VCosmo l false DLength a 1%Q true true))
  /\ (forall x a, has h "BoxSize" (HNum x) -> shows m "a" a -> shows m "boxsize" (VCosmo [x] true DLength a 1%Q true true))
  /\ (missing h "BoxSize" -> lacks m "boxsize").
Proof.
  intros te d c k f h m R H. apply read_built in R. destruct (get_arrays _ _ _ _ _ R H) as (A & _).
  destruct (get_scale _ _ _ _ _ R H) as (S & _). unfold has, missing, shows, lacks.
  split; [|split].
  - intros l a E F. rewrite E in A. rewrite S in F. injection F as <-. exact A.
  - intros x a E F. rewrite E in A. rewrite S in F. injection F as <-. exact A.
  - intro E. rewrite E in A. exact A.
Qed.

Theorem C77_handed_on : forall text_error is_date cosmology_ok k f h m,
  read_metadata text_error is_date cosmology_ok k f = Ok m -> header_is f h ->
  forall field attr, In (field, attr) handed_on ->
  (forall v, has h field v -> shows m attr (VHeader v)) /\ (missing h field -> lacks m attr).
Proof.
  intros te d c k f h m R H field attr I. apply read_built in R.
  destruct (get_arrays _ _ _ _ _ R H) as (_ & A & B & C & D & E & F). unfold has, missing, shows, lacks.
  destruct I as [G|[G|[G|[G|[G|[G|[]]]]]]]; injection G as <- <-; (split; [intros v J|intro J]).
  all: first [rewrite A|rewrite B|rewrite C|rewrite D|rewrite E|rewrite F]; rewrite J; reflexivity.
Qed.

(** The mass tables: one mass for each type of particle, zeros when there is no table. *)
Theorem C77_masses : forall text_error is_date cosmology_ok k f h m,
  read_metadata text_error is_date cosmology_ok k f = Ok m -> header_is f h ->
  forall field attr, In (field, attr) [("MassTable", "mass_table"); ("InitialMassTable", "initial_mass_table")]%string ->
  (forall l, has h field (HArr l) -> exists t, shows m attr (VMasses t) /\ masses_of l t)
  /\ (missing h field -> exists t, shows m attr (VMasses t) /\ masses_of (repeat 0%Q 8) t).
Proof.
  intros te d c k f h m R H field attr I. apply read_built in R.
  destruct (get_tables _ _ _ _ _ R H) as (A & B & C & D).
  assert (M : forall l, exists t, masses l = VMasses t /\ masses_of l t).
  { intro l. eexists. split; [reflexivity|]. split; [reflexivity|]. intros i n E.
    assert (K : exists p, nth_error (combine (seq 0 8) particle_name_underscores) i = Some (i, (p, txt n))).
    { do 8 (destruct i as [|i]; [cbn in E; injection E as <-; eexists; reflexivity|]). destruct i; discriminate. }
    destruct K as (p & K). split; [intros x F|intro F]; rewrite (map_nth_error _ _ _ K); cbn [fst snd]; rewrite F; reflexivity. }
  unfold has, missing, shows.
  destruct I as [G|[G|[]]]; injection G as <- <-.
  - split; [intros l J; rewrite (A l J); destruct (M l) as (t & -> & T); eauto|].
    intro J. rewrite (B J). destruct (M (repeat zero 8)) as (t & -> & T). eauto.
  - split; [intros l J; rewrite (C l J); destruct (M l) as (t & -> & T); eauto|].
    intro J. rewrite (D J). destruct (M (repeat zero 8)) as (t & -> & T). eauto.
Qed.

(** Texts: decoded, and empty when missing; values that are no text are handed on. *)
Theorem C77_texts : forall text_error is_date cosmology_ok k f h m,
  read_metadata text_error is_date cosmology_ok k f = Ok m -> header_is f h ->
  forall field attr, In (field, attr) texts ->
  (forall s v, has h field v -> In v [HStr s; HBytes s] -> shows m attr (VText s))
  /\ (forall v, has h field v -> ~ is_text v -> shows m attr (VHeader v))
  /\ (missing h field -> shows m attr (VText [])).
Proof.
  intros te d c k f h m R H field attr I. apply read_built in R.
  destruct (get_strings _ _ _ _ _ R H) as (A & B & C & D). unfold has, missing, shows.
  destruct I as [G|[G|[G|[G|[]]]]]; injection G as <- <-; (split; [intros s v J K|split; [intros v J K|intro J]]).
  all: first [rewrite A|rewrite B|rewrite C|rewrite D]; rewrite J; cbn [text_of].
  all: try (destruct K as [<-|[<-|[]]]; reflexivity); try reflexivity.
  all: destruct v; try reflexivity; destruct (K Logic.I).
Qed.

(** The date: parsed when it can be. *)
Theorem C77_date : forall text_error is_date cosmology_ok k f h m,
  read_metadata text_error is_date cosmology_ok k f = Ok m -> header_is f h ->
  forall s, date_text h s ->
  (is_date s = true -> shows m "snapshot_date" (VDate s)) /\ (is_date s = false -> shows m "snapshot_date" (VText s)).
Proof.
  intros te d c k f h m R H s T. apply read_built in R.
  destruct (get_date _ _ _ _ _ R H) as (A & B & C). unfold shows.
  assert (E : dict_get m (txt "snapshot_date") = Some (date_value d s)).
  { destruct T as [(v & V & J)|[(N & v & V & J)|(N1 & N2 & ->)]].
    - apply A. destruct J as [<-|[<-|[]]]; auto.
    - apply B; [exact N|]. destruct J as [<-|[<-|[]]]; auto.
    - apply C; assumption. }
  rewrite E. unfold date_value. split; intros ->; reflexivity.
Qed.

(** The number of particles of each type; 0 for types beyond the end of the counts. *)
Theorem C77_numbers : forall text_error is_date cosmology_ok k f h m,
  read_metadata text_error is_date cosmology_ok k f = Ok m -> header_is f h ->
  exists v, has h "NumPart_ThisFile" v
  /\ forall i n, nth_error type_names i = Some n ->
       (forall w, item_of v i w -> dict_get m (txt "n_" ++ txt n) = Some w)
       /\ ((forall w, ~ item_of v i w) -> dict_get m (txt "n_" ++ txt n) = Some (VNum 0%Q)).
Proof.
  intros te d c k f h m R H. apply read_built in R. destruct (get_numbers _ _ _ _ _ R H) as (v & V & A).
  exists v. split; [exact V|]. intros i n E. specialize (A i n E). split.
  - intros w I. apply item_iff in I. rewrite I in A. exact A.
  - intro N. destruct (item_at v i) as [w|] eqn:I; [apply item_iff in I; destruct (N w I)|exact A].
Qed.

Theorem C77_radiation : forall text_error is_date cosmology_ok k f h m,
  read_metadata text_error is_date cosmology_ok k f = Ok m -> header_is f h ->
  shows m "photon_group_edges" (match mf_edges f with Some l => VEdges l | None => VNone end)
  /\ shows m "reduced_lightspeed" (match mf_speed f with Some x => VSpeed x | None => VNone end).
Proof.
  intros te d c k f h m R H. apply read_built in R. destruct (get_radiation _ _ _ _ _ R H) as (A & B & _). auto.
Qed.

Theorem C77_gas_gamma : forall text_error is_date cosmology_ok k f h m,
  read_metadata text_error is_date cosmology_ok k f = Ok m -> header_is f h ->
  (forall g v, dict_get (mf_groups f) (txt "HydroScheme") = Some g -> has (gi_attrs g) "Adiabatic index" v ->
     shows m "gas_gamma" (VHeader v))
  /\ (forall g, dict_get (mf_groups f) (txt "HydroScheme") = Some g -> missing (gi_attrs g) "Adiabatic index" ->
     shows m "gas_gamma" VNone)
  /\ (dict_get (mf_groups f) (txt "HydroScheme") = None -> shows m "gas_gamma" VNone).
Proof.
  intros te d c k f h m R H. apply read_built in R. destruct (get_radiation _ _ _ _ _ R H) as (_ & _ & A).
  unfold raw, gas_gamma in A. unfold has, missing, shows. split; [|split].
  - intros g v E F. rewrite E, F in A. exact A.
  - intros g E F. rewrite E, F in A. exact A.
  - intro E. rewrite E in A. exact A.
Qed.

(** The dictionaries of attributes of the groups of the file. *)
Theorem C77_dictionaries : forall text_error is_date cosmology_ok k f m,
  read_metadata text_error is_date cosmology_ok k f = Ok m ->
  forall group attr, In (group, attr) dictionaries ->
  (forall g, dict_get (mf_groups f) (txt group) = Some g -> shows m attr (VDict (gi_attrs g)))
  /\ (dict_get (mf_groups f) (txt group) = None -> shows m attr VNone).
Proof.
  intros te d c k f m R group attr I. apply read_built in R.
  assert (J : In (txt group, txt attr) metadata_fields_to_read).
  { apply (in_map (fun ga => (txt (fst ga), txt (snd ga)))) in I. exact I. }
  pose proof (get_raw _ _ _ _ R group attr J) as A. unfold raw in A. unfold shows. split.
  - intros g E. rewrite E in A. exact A.
  - intro E. rewrite E in A. exact A.
Qed.

(** The cosmology of cosmological runs. *)
Theorem C77_cosmology : forall text_error is_date cosmology_ok k f m,
  read_metadata text_error is_date cosmology_ok k f = Ok m ->
  (cosmological f true -> cosmology_ok (cosmology_in f) = Ok tt /\ shows m "cosmology" (VCosmology (cosmology_in f)))
  /\ (cosmological f false -> shows m "cosmology" VNone).
Proof.
  intros te d c k f m R. destruct (read_cosmology _ _ _ _ _ _ R) as (b & B & O & S).
  assert (U : forall b', cosmological f b' -> b' = b).
  { intros b' B'. unfold cosmological in B, B'. destruct (dict_get (cosmology_in f) (txt "Cosmological run")); [|congruence].
    apply truth_iff in B. apply truth_iff in B'. congruence. }
  split; intro B'; apply U in B'; subst b; auto.
Qed.

Theorem C77_subhalos : forall text_error is_date cosmology_ok f h m x r,
  read_metadata text_error is_date cosmology_ok KSOAP f = Ok m -> header_is f h ->
  has h "NumSubhalos_ThisFile" (HArr (inject_Z x :: r)) -> shows m "n_subhalos" (VInt x).
Proof.
  intros te d c f h m x r R H E. unfold shows. rewrite (read_subhalos te d c f m (inject_Z x) r h R H E).
  unfold truncate. cbn. rewrite Z.quot_1_r. reflexivity.
Qed.

(** The files that are accepted. *)
Theorem C77_accepts_iff : forall text_error is_date cosmology_ok k f h, header_is f h ->
  ((exists m, read_metadata text_error is_date cosmology_ok k f = Ok m) <->
   mappings_fine k f /\ header_ok h /\ subhalos_fine k h
   /\ (exists gs, listed k f h gs /\ Forall (group_fine k f gs) gs)
   /\ exists b, cosmological f b /\ (b = true -> cosmology_ok (cosmology_in f) = Ok tt)).
Proof. exact read_ok. Qed.

Theorem C77_no_header_refused : forall text_error is_date cosmology_ok k f,
  dict_get (mf_groups f) (txt "Header") = None ->
  exists e, read_metadata text_error is_date cosmology_ok k f = Err e.
Proof.
  intros te d c k f H. destruct (read_metadata te d c k f) as [m|e] eqn:R; [|eauto].
  apply read_built in R. destruct (no_header _ _ _ _ H R).
Qed.

(** The kind of a file comes from its header. *)
Theorem C77_kind : forall text_error is_date cosmology_ok f h k m, header_is f h ->
  (open_metadata text_error is_date cosmology_ok f = Ok (k, m) <->
   read_metadata text_error is_date cosmology_ok k f = Ok m
   /\ ((missing h "OutputType" /\ metadata_discriminator None = Ok k)
       \/ exists s v, has h "OutputType" v /\ In v [HStr s; HBytes s]
                      /\ metadata_discriminator (Some (string_of_list_ascii s)) = Ok k)).
Proof.
  intros te d c f h k m (g & G & <-). unfold open_metadata, missing, has. rewrite G.
  destruct (dict_get (gi_attrs g) (txt "OutputType")) as [v|] eqn:O.
  - split.
    + intro R. destruct v; try discriminate; destruct (metadata_discriminator _) as [k'|] eqn:D; try discriminate; cbn [bind] in R;
        destruct (read_metadata _ _ _ k' f) as [m'|] eqn:E; try discriminate; injection R as -> ->; (split; [exact E|]);
        right; exists s; eexists; (split; [reflexivity|]); (split; [cbn; auto|exact D]).
    + intros (R & [(F & _)|(s & w & F & I & D)]); [discriminate|]. injection F as ->.
      destruct I as [<-|[<-|[]]]; rewrite D; cbn [bind]; rewrite R; reflexivity.
  - split.
    + intro R. destruct (metadata_discriminator None) as [k'|] eqn:D; [|discriminate]. cbn [bind] in R.
      destruct (read_metadata _ _ _ k' f) as [m'|] eqn:E; [|discriminate]. injection R as -> ->. auto.
    + intros (R & [(_ & D)|(s & w & F & _)]); [|discriminate]. rewrite D. cbn [bind]. rewrite R. reflexivity.
Qed.

(** A small snapshot. *)
Definition snapshot_header : dict :=
  [ (txt "Time", HArr [3#2]); (txt "Dimension", HArr [3%Q]); (txt "Redshift", HArr [1#4]);
    (txt "Scale-factor", HArr [4#5]); (txt "BoxSize", HArr [10%Q; 10%Q; 20%Q]);
    (txt "NumPart_ThisFile", HArr [5%Q; 0%Q; 0%Q; 0%Q; 2%Q]); (txt "CanHaveTypes", HArr [1%Q; 0%Q; 0%Q; 0%Q; 1%Q]);
    (txt "MassTable", HArr [0%Q; 7%Q]); (txt "RunName", HBytes (txt "small")); (txt "OutputType", HBytes (txt "FullVolume")) ].

Definition snapshot_file : mfile :=
  mk_mfile
    [ (txt "Header", mk_ginfo snapshot_header []);
      (txt "Cosmology", mk_ginfo [(txt "Cosmological run", HArr [1%Q])] []);
      (txt "HydroScheme", mk_ginfo [(txt "Adiabatic index", HArr [5#3])] []);
      (txt "PartType0", mk_ginfo [] [txt "Coordinates"; txt "ElementMassFractions"]);
      (txt "PartType4", mk_ginfo [] [txt "BirthTimes"]) ]
    [txt "Header"; txt "PartType0"; txt "PartType4"]
    (Some [(txt "ElementMassFractions", [txt "Hydrogen"; txt "Helium"]); (txt "DustMassFractions", [txt "Graphite"; txt "SilicatesMg"])])
    (Some [(txt "NamedColumns", []); (txt "GrainToElementMapping", [[1%Q; 2%Q]; [3%Q; 4%Q]])])
    None (Some 2%Q).

Definition no_date (s : name) : bool := false.
Definition fine (d : dict) : res unit := Ok tt.

Example C77_example : exists m, open_metadata ValueError no_date fine snapshot_file = Ok (KSnapshot, m)
  /\ header_is snapshot_file snapshot_header /\ cosmological snapshot_file true
  /\ shows m "time" (VUnit (3#2) DTime) /\ shows m "z" (VNum (1#4)) /\ shows m "a" (VNum (4#5))
  /\ shows m "boxsize" (VCosmo [10%Q; 10%Q; 20%Q] false DLength (VNum (4#5)) 1%Q true true)
  /\ shows m "n_stars" (VNum 2%Q) /\ shows m "n_black_holes" (VNum 0%Q)
  /\ shows m "run_name" (VText (txt "small")) /\ shows m "system_name" (VText [])
  /\ shows m "output_type" (VText (txt "FullVolume"))
  /\ shows m "gas_gamma" (VHeader (HArr [5#3])) /\ shows m "reduced_lightspeed" (VSpeed 2%Q)
  /\ shows m "photon_group_edges" VNone /\ lacks m "num_subhalo"
  /\ exists t, shows m "mass_table" (VMasses t) /\ nth_error t 1 = Some (txt "dark_matter", Some (7%Q, DMass))
               /\ nth_error t 4 = Some (txt "stars", None).
Proof.
  eexists. split; [vm_compute; reflexivity|]. split; [eexists; split; reflexivity|].
  split; [unfold cosmological; vm_compute; apply run_arr; discriminate|].
  repeat (split; [vm_compute; reflexivity|]). eexists. split; [vm_compute; reflexivity|]. split; reflexivity.
Qed.

(** Counts stored as one number are read as 0 (here for a catalogue of groups). *)
Theorem C77_single_count_refuted : exists f h m,
  open_metadata ValueError no_date fine f = Ok (KFOF, m) /\ header_is f h
  /\ has h "NumPart_ThisFile" (HNum 5%Q) /\ shows m "n_gas" (VNum 0%Q).
Proof.
  exists (mk_mfile [ (txt "Header", mk_ginfo [(txt "NumPart_ThisFile", HNum 5%Q); (txt "OutputType", HStr (txt "FOF"))] []);
                     (txt "Groups", mk_ginfo [] [txt "Masses"]) ] [] None None None None).
  eexists. eexists. split; [vm_compute; reflexivity|]. split; [eexists; split; reflexivity|]. split; vm_compute; reflexivity.
Qed.

(** * C78: groups and fields *)

(** Each group of the file has an object with its fields, its columns and its attributes, and there
    are no others.  Of two groups with one name the later one counts. *)
Theorem C78_groups : forall text_error is_date cosmology_ok k f h m,
  read_metadata text_error is_date cosmology_ok k f = Ok m -> header_is f h ->
  exists gs, listed k f h gs
  /\ (forall g, In g gs -> exists n, named k g n)
  /\ (forall i g n, nth_error gs i = Some g -> named k g n ->
        (forall j g', i < j -> nth_error gs j = Some g' -> ~ named k g' n) ->
        exists gm, dict_get m (n ++ txt "_properties") = Some (VGroup gm) /\ describes k f gs g n gm)
  /\ (forall a v, is_suffix (txt "_properties") a -> dict_get m a = Some v ->
        exists g n gm, In g gs /\ named k g n /\ a = n ++ txt "_properties" /\ v = VGroup gm /\ describes k f gs g n gm).
Proof.
  intros te d c k f h m R H. destruct (read_groups _ _ _ _ _ _ _ R H) as (gs & A & B & C & D).
  exists gs. split; [exact A|]. split; [exact C|]. split; [exact B|]. intros a v E. apply D. apply ends_iff. exact E.
Qed.

(** The names of the groups of a snapshot differ, so that every group is there. *)
Theorem C78_snapshot_names_differ : forall g g' n, named KSnapshot g n -> named KSnapshot g' n -> g = g'.
Proof.
  intros g g' n (i & t & T & G & ->) (i' & t' & T' & G' & E).
  apply type_group_iff in G. apply type_group_iff in G'. subst g g'.
  assert (I : i < 8) by (apply (proj1 (nth_error_Some type_names i)); congruence).
  assert (I' : i' < 8) by (apply (proj1 (nth_error_Some type_names i')); congruence).
  do 2 f_equal.
  do 8 (destruct i as [|i]; [injection T as <-; do 8 (destruct i' as [|i'];
    [injection T' as <-; first [reflexivity | vm_compute in E; discriminate]|]); lia|]). lia.
Qed.

(** The types that have a name are the first eight. *)
Theorem C78_named_types : forall i g, type_group i g -> ((exists n, named KSnapshot g n) <-> i < 8).
Proof. exact decimal_type. Qed.

Example C78_example : exists m gm gm4, open_metadata ValueError no_date fine snapshot_file = Ok (KSnapshot, m)
  /\ listed KSnapshot snapshot_file snapshot_header [txt "PartType0"; txt "PartType4"]
  /\ shows m "gas_properties" (VGroup gm) /\ shows m "stars_properties" (VGroup gm4)
  /\ gm_names gm = [txt "coordinates"; txt "element_mass_fractions"]
  /\ gm_paths gm = [txt "PartType0/Coordinates"; txt "PartType0/ElementMassFractions"]
  /\ gm_columns gm = [(txt "PartType0/Coordinates", None);
                      (txt "PartType0/ElementMassFractions", Some [txt "hydrogen"; txt "helium"])]
  /\ gm_names gm4 = [txt "birth_times"] /\ lacks m "dark_matter_properties".
Proof.
  eexists. eexists. eexists. split; [vm_compute; reflexivity|]. split.
  - exists [1%Q; 0%Q; 0%Q; 0%Q; 1%Q], [0; 4]. split; [left; reflexivity|].
    split; [repeat constructor|]. split; [|repeat constructor; apply type_group_iff; reflexivity]. intro i. split.
    + intros [<-|[<-|[]]]; (eexists; split; [reflexivity|discriminate]).
    + intros (x & E & N). do 5 (destruct i as [|i]; [cbn in E; injection E as <-; cbn; first [now auto | destruct (N (Qeq_refl _))]|]).
      destruct i; discriminate.
  - do 2 (split; [vm_compute; reflexivity|]). repeat (split; [vm_compute; reflexivity|]). vm_compute. reflexivity.
Qed.

(** A type that the file can have, without a group for it: the file cannot be read. *)
Theorem C78_absent_group_refuted :
  read_metadata ValueError no_date fine KSnapshot
    (mk_mfile [ (txt "Header", mk_ginfo [(txt "NumPart_ThisFile", HArr [0%Q; 0%Q]); (txt "CanHaveTypes", HArr [1%Q; 0%Q])] []) ]
       [] None None None None) = Err KeyError.
Proof. vm_compute. reflexivity. Qed.

(** A ninth type: the file cannot be read although the group is there. *)
Theorem C78_ninth_type_refuted :
  read_metadata ValueError no_date fine KSnapshot
    (mk_mfile [ (txt "Header", mk_ginfo [(txt "NumPart_ThisFile", HArr (repeat 0%Q 8 ++ [1%Q]))] []);
                (txt "PartType8", mk_ginfo [] [txt "Coordinates"]) ]
       [] None None None None) = Err KeyError.
Proof. vm_compute. reflexivity. Qed.

(** Catalogues without particle counts cannot be read. *)
Theorem C78_no_counts_refuted :
  read_metadata ValueError no_date fine KFOF
    (mk_mfile [ (txt "Header", mk_ginfo [] []); (txt "Groups", mk_ginfo [] [txt "Masses"]) ] [] None None None None)
  = Err AttributeError.
Proof. vm_compute. reflexivity. Qed.

(** A group inside of a group is listed as a field unless it is one of the groups itself. *)
Theorem C78_nested_group_refuted : exists f m gm,
  read_metadata ValueError no_date fine KSOAP f = Ok m
  /\ shows m "spherical_overdensity_200_crit_properties" (VGroup gm)
  /\ (exists g, dict_get (mf_groups f) (txt "SO/200_crit/Old") = Some g)
  /\ gm_names gm = [txt "total_mass"; txt "old"].
Proof.
  exists (mk_mfile [ (txt "Header", mk_ginfo [(txt "NumPart_ThisFile", HArr []); (txt "NumSubhalos_ThisFile", HArr [3%Q]);
                                              (txt "SubhaloTypes", HStrs [txt "SO/200_crit"])] []);
                     (txt "SO/200_crit", mk_ginfo [] [txt "TotalMass"; txt "Old"]);
                     (txt "SO/200_crit/Old", mk_ginfo [] [txt "TotalMass"]) ] [] None None None None).
  eexists. eexists. split; [vm_compute; reflexivity|]. split; [vm_compute; reflexivity|].
  split; [eexists; reflexivity|]. reflexivity.
Qed.

(** Lines of sight are in the order of their texts, so that 10 is before 2. *)
Theorem C78_text_order_refuted : exists f h,
  header_is f h /\ mf_keys f = [txt "LOS_2"; txt "LOS_10"]
  /\ listed KLineOfSight f h [txt "LOS_10"; txt "LOS_2"] /\ ~ listed KLineOfSight f h [txt "LOS_2"; txt "LOS_10"].
Proof.
  exists (mk_mfile [(txt "Header", mk_ginfo [] [])] [txt "LOS_2"; txt "LOS_10"] None None None None). eexists.
  split; [eexists; split; reflexivity|]. split; [reflexivity|]. split.
  - split.
    + apply (proj1 (sorted_spec [txt "LOS_2"; txt "LOS_10"])).
    + exists []. split; [|split].
      * rewrite app_nil_r. cbn. apply perm_swap.
      * repeat constructor; apply starts_iff'; vm_compute; reflexivity.
      * constructor.
  - intros (S & _). inversion S as [|? ? _ F]. subst. inversion F as [|? ? L _]. subst.
    apply name_leb_le in L. vm_compute in L. discriminate.
Qed.

(** * C79: tables between columns *)

(** For each key that ends with Mapping and is made of letters, To, letters and Mapping there is a
    table.  The first letters are as many as possible. *)
Theorem C79_tables : forall text_error is_date cosmology_ok k f m,
  read_metadata text_error is_date cosmology_ok k f = Ok m -> k = KSnapshot \/ k = KLineOfSight ->
  (forall l1 key data l2 x y, subgrid_in f = l1 ++ (key, data) :: l2 -> is_suffix (txt "Mapping") key -> longest key x y ->
     (forall key' data', In (key', data') l2 -> is_suffix (txt "Mapping") key' -> snake key' <> snake key) ->
     exists t, dict_get m (snake key) = Some (VTable t) /\ tabulates (columns_in f) data x y t)
  /\ (forall n v, is_suffix (txt "mapping") n -> dict_get m n = Some v ->
        exists key data x y t, In (key, data) (subgrid_in f) /\ is_suffix (txt "Mapping") key /\ longest key x y
          /\ n = snake key /\ v = VTable t /\ tabulates (columns_in f) data x y t).
Proof.
  intros te d c k f m R K.
  assert (T : forall key data x y t, is_table (columns_in f) key data x y t -> tabulates (columns_in f) data x y t).
  { intros key data x y t (x' & A & B & C & D & E). split; [eauto|]. split; [exact C|]. split; [exact D|]. split.
    - intros i j nx ny. apply (values_get _ _ _ _ _ _ _ _ E).
    - intros n v. apply (values_only _ _ _ _ _ _ E). }
  assert (G : forall n, ends_with (txt "mapping") n = true -> exists mm, get_mapping_metadata f (columns_in f) = Ok mm
    /\ dict_get m n = dict_get mm n).
  { intros n E. rewrite (read_mapping _ _ _ _ _ _ _ R E). apply read_iff in R.
    destruct R as (maps & post & sub & gs & cc & C & _). rewrite C.
    unfold columns_of in C.
    assert (C' : exists mm, get_mapping_metadata f (columns_in f) = Ok mm
      /\ (txt "named_columns", VColumns (columns_in f)) :: mm = maps).
    { destruct K as [-> | ->]; cbv zeta in C; fold (columns_in f) in C;
        destruct (get_mapping_metadata f (columns_in f)) as [mm|]; try discriminate; injection C as <-; eauto. }
    destruct C' as (mm & C' & <-). exists mm. split; [exact C'|].
    cbn [dict_get]. destruct (dict_get mm n); [reflexivity|].
    destruct (name_eqb (txt "named_columns") n) eqn:F; [|reflexivity].
    apply name_eqb_iff in F. subst n. vm_compute in E. discriminate. }
  split.
  - intros l1 key data l2 x y E S L U. destruct (G (snake key)) as (mm & M & ->).
    + apply snake_ends. apply ends_iff. exact S.
    + destruct (mapping_get f _ mm l1 key data l2 x y M E S L U) as (t & D & I). exists t. split; [exact D|].
      apply (T key). exact I.
  - intros n v S D. apply ends_iff in S. destruct (G n S) as (mm & M & E). rewrite E in D.
    apply dict_get_in' in D. destruct (mapping_origin f _ mm _ M D) as (key & data & x & y & t & I & S' & L & A & F).
    injection F as -> ->. exists key, data, x, y, t. split; [exact I|]. split; [exact S'|]. split; [exact L|].
    split; [reflexivity|]. split; [reflexivity|]. apply (T key). exact A.
Qed.

(** Other kinds of files have no tables. *)
Theorem C79_no_tables : forall text_error is_date cosmology_ok k f m n,
  read_metadata text_error is_date cosmology_ok k f = Ok m -> k = KFOF \/ k = KSOAP ->
  is_suffix (txt "mapping") n -> dict_get m n = None.
Proof.
  intros te d c k f m n R K S. apply ends_iff in S. rewrite (read_mapping _ _ _ _ _ _ _ R S).
  destruct K as [-> | ->]; reflexivity.
Qed.

(** A key has at most one such splitting. *)
Theorem C79_splitting_unique : forall key x y x' y', longest key x y -> longest key x' y' -> x = x' /\ y = y'.
Proof. exact longest_unique. Qed.

Theorem C79_splitting_exists : forall key, (exists x y, splits key x y) <-> exists x y, longest key x y.
Proof.
  intro key. split.
  - intros (x & y & S). destruct (match_mapping key) as [[x' y']|] eqn:E.
    + exists x', y'. apply match_longest. exact E.
    + destruct (proj1 (match_none key) E x y S).
  - intros (x & y & S & _). eauto.
Qed.

Example C79_example : exists m t, open_metadata ValueError no_date fine snapshot_file = Ok (KSnapshot, m)
  /\ longest (txt "GrainToElementMapping") (txt "Grain") (txt "Element")
  /\ shows m "grain_to_element_mapping" (VTable t)
  /\ mt_x t = [txt "Graphite"; txt "SilicatesMg"] /\ mt_y t = [txt "Hydrogen"; txt "Helium"]
  /\ dict_get (mt_values t) (txt "silicatesmg_to_hydrogen") = Some 3%Q.
Proof.
  eexists. eexists. split; [vm_compute; reflexivity|]. split; [apply match_longest; vm_compute; reflexivity|].
  split; [vm_compute; reflexivity|]. split; [reflexivity|]. split; reflexivity.
Qed.

(** A name that starts with To, or has it inside, is split there, and its columns are not found. *)
Theorem C79_last_to_refuted :
  splits (txt "DustToTotalMapping") (txt "Dust") (txt "Total")
  /\ longest (txt "DustToTotalMapping") (txt "DustTo") (txt "tal")
  /\ mapping_metadata [(txt "Dust", [txt "A"]); (txt "Total", [txt "B"])] (txt "DustToTotalMapping", [[1%Q]]) = Err IndexError.
Proof.
  split; [|split; [apply match_longest; vm_compute; reflexivity|vm_compute; reflexivity]].
  split; [|split; [|exists []; reflexivity]]; apply Forall_forall; intros c I; apply is_letter_iff;
    cbn in I; repeat (destruct I as [<-|I]; [reflexivity|]); destruct I.
Qed.

(** A table for columns that are not named: the whole file cannot be read. *)
Theorem C79_no_columns_refuted :
  read_metadata ValueError no_date fine KSnapshot
    (mk_mfile [ (txt "Header", mk_ginfo snapshot_header []); (txt "PartType0", mk_ginfo [] []); (txt "PartType4", mk_ginfo [] []) ]
       [] (Some []) (Some [(txt "GrainToElementMapping", [[1%Q]])]) None None) = Err IndexError.
Proof. vm_compute. reflexivity. Qed.

(** Two columns whose names differ by case: the value of the second is shown. *)
Theorem C79_case_refuted : exists t,
  mapping_metadata [(txt "Dust", [txt "A"; txt "a"]); (txt "Element", [txt "H"])]
    (txt "DustToElementMapping", [[1%Q]; [2%Q]]) = Ok [(txt "dust_to_element_mapping", VTable t)]
  /\ dict_get (mt_values t) (txt "a_to_h") = Some 2%Q.
Proof. eexists. split; vm_compute; reflexivity. Qed.

(** * C80: attributes of lines of sight *)

Lemma dict_get_last_named : forall A B (f : A -> name) (g : A -> B) l n x, last_named f l n x ->
  dict_get (map (fun y => (f y, g y)) l) n = Some (g x).
Proof.
  intros A B f g l n x (l1 & l2 & -> & <- & F). rewrite map_app. cbn [map]. apply dict_get_last.
  intros kv I. apply in_map_iff in I. destruct I as (y & <- & I). cbn [fst]. rewrite Forall_forall in F. apply F. exact I.
Qed.

Lemma combine_maps : forall A B C (f : A -> B) (g : A -> C) l, combine (map f l) (map g l) = map (fun x => (f x, g x)) l.
Proof. intros A B C f g l. induction l as [|x l IH]; [reflexivity|]. cbn. rewrite IH. reflexivity. Qed.

(** What the names of a group object stand for.  In lines of sight an attribute of the group comes
    before a field of the same name, and a later one before an earlier one. *)
Theorem C80_members : forall k f gs g n gm gi, describes k f gs g n gm -> dict_get (mf_groups f) g = Some gi ->
  exists items, fields_of gs g (gi_keys gi) items
  /\ (k = KLineOfSight -> forall p a, last_named (fun kv => snake (fst kv)) (gi_attrs gi) p a ->
        dict_get (members gm) p = Some (MAttribute (fst a)))
  /\ (forall p i, last_named snake items p i ->
        (k = KLineOfSight -> Forall (fun kv => snake (fst kv) <> p) (gi_attrs gi)) ->
        dict_get (members gm) p = Some (MField (path_of g i)))
  /\ (forall p w, dict_get (members gm) p = Some w ->
        (exists i, In i items /\ snake i = p /\ w = MField (path_of g i))
        \/ k = KLineOfSight /\ exists kv, In kv (gi_attrs gi) /\ snake (fst kv) = p /\ w = MAttribute (fst kv)).
Proof.
  intros k f gs g n gm gi (_ & _ & gi' & items & G & F & P & N & _ & A) G'. rewrite G' in G. injection G as <-.
  exists items. split; [exact F|].
  assert (M : members gm = map (fun i => (snake i, MField (path_of g i))) items
    ++ match k with KLineOfSight => map (fun kv => (snake (fst kv), MAttribute (fst kv))) (gi_attrs gi) | _ => [] end).
  { unfold members. rewrite P, N, A, map_map, combine_maps. f_equal. destruct k; try reflexivity. rewrite map_map. reflexivity. }
  rewrite M. split; [|split].
  - intros -> p a L. rewrite dict_get_app. rewrite (dict_get_last_named _ _ (fun kv : name * hval => snake (fst kv)) (fun kv => MAttribute (fst kv)) _ _ _ L).
    reflexivity.
  - intros p i L U. rewrite dict_get_app.
    assert (Z : dict_get (match k with KLineOfSight => map (fun kv => (snake (fst kv), MAttribute (fst kv))) (gi_attrs gi) | _ => [] end) p = None).
    { destruct k; try reflexivity. specialize (U eq_refl). apply dict_get_none. intros kv I. apply in_map_iff in I.
      destruct I as (y & <- & I). cbn [fst]. rewrite Forall_forall in U. apply U. exact I. }
    rewrite Z. apply (dict_get_last_named _ _ snake (fun i => MField (path_of g i))). exact L.
  - intros p w D. apply dict_get_in' in D. apply in_app_or in D. destruct D as [D|D].
    + apply in_map_iff in D. destruct D as (i & E & I). injection E as <- <-. left. eauto.
    + right. destruct k; try (destruct D). split; [reflexivity|]. apply in_map_iff in D. destruct D as (kv & E & I).
      injection E as <- <-. eauto.
Qed.

(** The numbers of an attribute; positions are comoving lengths, everything else has no dimension,
    is physical and does not depend on the scale factor. *)
Theorem C80_values : forall f g gi public attr, dict_get (mf_groups f) g = Some gi ->
  (forall l, dict_get (gi_attrs gi) attr = Some (HArr l) ->
     exists v, read_attribute f g public attr = Ok v /\ av_numbers v = l /\ (av_scalar v = true <-> length l = 1))
  /\ (forall x, dict_get (gi_attrs gi) attr = Some (HNum x) ->
     exists v, read_attribute f g public attr = Ok v /\ av_numbers v = [x] /\ av_scalar v = true).
Proof.
  intros f g gi public attr G. unfold read_attribute. rewrite G. split; [intros l E|intros x E]; rewrite E; eexists;
    (split; [reflexivity|]); (split; [reflexivity|]); cbn [av_scalar]; [apply Nat.eqb_eq|reflexivity].
Qed.

Theorem C80_units : forall f g public attr v, read_attribute f g public attr = Ok v ->
  (is_position public -> av_unit v = Some DLength /\ av_comoving v = true /\ av_exponent v = 1%Q)
  /\ (~ is_position public -> av_unit v = None /\ av_comoving v = false /\ av_exponent v = 0%Q).
Proof.
  intros f g public attr v H.
  assert (E : av_unit v = attribute_unit public /\ av_comoving v = attribute_comoving public
              /\ av_exponent v = attribute_exponent public).
  { unfold read_attribute in H. destruct (dict_get (mf_groups f) g) as [gi|]; [|discriminate].
    destruct (dict_get (gi_attrs gi) attr) as [[]|]; try discriminate; injection H as <-; auto. }
  destruct E as (-> & -> & ->). unfold attribute_unit, attribute_comoving, attribute_exponent, is_position.
  change [txt "xpos"; txt "ypos"; txt "zpos"] with los_positions.
  destruct (in_names public los_positions) eqn:E.
  - apply in_names_iff in E. split; [auto|]. intro N. destruct (N E).
  - split; [|auto]. intro I. apply in_names_iff in I. congruence.
Qed.

(** An attribute that is not there, or is no number, is refused. *)
Theorem C80_refused : forall f g public attr v, read_attribute f g public attr = Ok v ->
  exists gi w, dict_get (mf_groups f) g = Some gi /\ dict_get (gi_attrs gi) attr = Some w /\ is_numbers w.
Proof.
  intros f g public attr v H. unfold read_attribute in H. destruct (dict_get (mf_groups f) g) as [gi|]; [|discriminate].
  destruct (dict_get (gi_attrs gi) attr) as [w|] eqn:E; [|discriminate].
  exists gi, w. split; [reflexivity|]. split; [exact E|]. destruct w; try discriminate; exact Logic.I.
Qed.

Definition sight_file : mfile :=
  mk_mfile
    [ (txt "Header", mk_ginfo [(txt "NumPart_ThisFile", HArr [4%Q]); (txt "OutputType", HStr (txt "LineOfSight"))] []);
      (txt "LOS_0000", mk_ginfo [(txt "Xpos", HArr [3%Q]); (txt "NumParts", HNum 4%Q); (txt "Masses", HNum 9%Q)]
                         [txt "Masses"; txt "Densities"]) ]
    [txt "Header"; txt "LOS_0000"] None None None None.

Example C80_example : exists m gm, open_metadata ValueError no_date fine sight_file = Ok (KLineOfSight, m)
  /\ shows m "los_0000_properties" (VGroup gm)
  /\ dict_get (members gm) (txt "xpos") = Some (MAttribute (txt "Xpos"))
  /\ dict_get (members gm) (txt "densities") = Some (MField (txt "LOS_0000/Densities"))
  /\ read_attribute sight_file (txt "LOS_0000") (txt "xpos") (txt "Xpos")
     = Ok (mk_attr_value [3%Q] true (Some DLength) true 1%Q)
  /\ read_attribute sight_file (txt "LOS_0000") (txt "num_parts") (txt "NumParts")
     = Ok (mk_attr_value [4%Q] true None false 0%Q).
Proof. eexists. eexists. split; [vm_compute; reflexivity|]. repeat split; vm_compute; reflexivity. Qed.

(** A field with the name of an attribute cannot be read. *)
Theorem C80_hidden_field_refuted : exists m gm, open_metadata ValueError no_date fine sight_file = Ok (KLineOfSight, m)
  /\ shows m "los_0000_properties" (VGroup gm)
  /\ In (txt "masses") (gm_names gm)
  /\ dict_get (members gm) (txt "masses") = Some (MAttribute (txt "Masses"))
  /\ forall p, dict_get (members gm) p <> Some (MField (txt "LOS_0000/Masses")).
Proof.
  eexists. eexists. split; [vm_compute; reflexivity|]. split; [vm_compute; reflexivity|].
  split; [left; reflexivity|]. split; [vm_compute; reflexivity|].
  intros p D. pose proof D as D'. apply dict_get_in' in D'. cbn in D'.
  repeat (destruct D' as [E|D']; [try discriminate; injection E as <-; vm_compute in D; discriminate|]). destruct D'.
Qed.

Print Assumptions C77_time.
Print Assumptions C77_singles.
Print Assumptions C77_scale_factor.
Print Assumptions C77_box_size.
Print Assumptions C77_handed_on.
Print Assumptions C77_masses.
Print Assumptions C77_texts.
Print Assumptions C77_date.
Print Assumptions C77_numbers.
Print Assumptions C77_radiation.
Print Assumptions C77_gas_gamma.
Print Assumptions C77_dictionaries.
Print Assumptions C77_cosmology.
Print Assumptions C77_subhalos.
Print Assumptions C77_accepts_iff.
Print Assumptions C77_no_header_refused.
Print Assumptions C77_kind.
Print Assumptions C77_single_count_refuted.
Print Assumptions C78_groups.
Print Assumptions C78_snapshot_names_differ.
Print Assumptions C78_named_types.
Print Assumptions C78_absent_group_refuted.
Print Assumptions C78_ninth_type_refuted.
Print Assumptions C78_no_counts_refuted.
Print Assumptions C78_nested_group_refuted.
Print Assumptions C78_text_order_refuted.
Print Assumptions C79_tables.
Print Assumptions C79_no_tables.
Print Assumptions C79_splitting_unique.
Print Assumptions C79_splitting_exists.
Print Assumptions C79_last_to_refuted.
Print Assumptions C79_no_columns_refuted.
Print Assumptions C79_case_refuted.
Print Assumptions C80_members.
Print Assumptions C80_values.
Print Assumptions C80_units.
Print Assumptions C80_refused.
Print Assumptions C80_hidden_field_refuted.

(** C110: subset files are opened like their originals. *)
From Coq Require Import String Ascii List Arith Lia QArith ZArith Bool.
From Verif Require Import Base BaseLemmas RangesModel ReaderModel SortModel SubsetModel NamesModel NamesProofs MetaModel MetaSpec MetaProofs
  MetaHeaderProofs MetaGroupProofs MetaTheorems TreeModel TreeSpec TreeProofs TreeSuccessProofs TreeWriteProofs TreeTheorems
  ReopenModel ReopenSpec ReopenMetaProofs ReopenProofs ReopenFileProofs.
Import ListNotations.
Open Scope list_scope.

(** * The dictionary of the header *)

Lemma dict_of_get : forall raw (a : attrs) key v, NoDup (map fst a) -> In (key, v) a ->
  dict_get (dict_of raw a) (txt key) = Some (attribute_value raw v).
Proof.
  intros raw a key v. induction a as [|[k w] a IH]; intros N I; [destruct I|]. inversion N as [|? ? Nk N']; subst.
  cbn [dict_of map fst snd dict_get]. destruct I as [E|I].
  - injection E as -> ->. rewrite dict_get_none.
    + rewrite (proj2 (name_eqb_iff _ _) eq_refl). reflexivity.
    + intros kv J E. apply in_map_iff in J. destruct J as ([k' w'] & <- & J). cbn [fst] in E. apply txt_inj' in E. subst k'.
      apply Nk. apply (in_map fst) in J. exact J.
  - fold (dict_of raw a). rewrite (IH N' I). reflexivity.
Qed.

Lemma dict_of_none : forall raw (a : attrs) key, dict_get (dict_of raw a) (txt key) = None <-> ~ In key (map fst a).
Proof.
  intros raw a key. induction a as [|[k w] a IH]; [cbn; tauto|]. cbn [dict_of map fst snd dict_get]. fold (dict_of raw a).
  destruct (dict_get (dict_of raw a) (txt key)) as [x|].
  - split; [discriminate|]. intro N. exfalso. apply (proj1 (not_iff_compat IH)); [discriminate|]. intro J. apply N. right. exact J.
  - destruct (name_eqb (txt k) (txt key)) eqn:E.
    + apply name_eqb_iff in E. apply txt_inj' in E. subst k. split; [discriminate|]. intro N. destruct N. left. reflexivity.
    + split; [|reflexivity]. intros _ [->|I]; [rewrite (proj2 (name_eqb_iff _ _) eq_refl) in E; discriminate|].
      apply (proj1 IH eq_refl I).
Qed.

Lemma dict_of_some : forall raw (a : attrs) key x, NoDup (map fst a) -> dict_get (dict_of raw a) (txt key) = Some x ->
  exists v, In (key, v) a /\ x = attribute_value raw v.
Proof.
  intros raw a key x N E. destruct (in_dec string_dec key (map fst a)) as [I|I].
  - apply in_map_iff in I. destruct I as ([k v] & K & I). cbn in K. subst k. exists v. split; [exact I|].
    rewrite (dict_of_get raw a key v N I) in E. congruence.
  - apply (dict_of_none raw) in I. congruence.
Qed.

Section Written.
Context {V : Type}.
Variable raw : Z -> hval.
Variable texts : field V -> list name.
Variable matrix : field V -> list (list Q).
Variable numbers : field V -> list Q.
Variable first_number : field V -> Q.
Variable text_error : pyerr.
Variable is_date : name -> bool.
Variable cosmology_ok : dict -> res unit.
Variable argsort : list Z -> list nat.
Variables (m : tmask) (t : tree V) (o : out V) (a : attrs).

Let view := view raw texts matrix numbers first_number.
Let open := open_metadata text_error is_date cosmology_ok.

Lemma new_keys : forall a', new_header m a a' -> map fst a' = map fst a.
Proof. intros a' F. unfold new_header in F. generalize dependent a'. generalize (assoc "NumPart_ThisFile"%string a) (output_type_of a).
  intros hc ot a' F. induction F as [|x y l l' (E & _) F IH]; [reflexivity|]. cbn. rewrite E, IH. reflexivity. Qed.

Lemma new_dict : forall a', new_header m a a' -> forall n, ~ In n (map txt rewritten) ->
  dict_get (dict_of raw a') n = dict_get (dict_of raw a) n.
Proof.
  intros a' F n N. unfold new_header in F. revert F. generalize (assoc "NumPart_ThisFile"%string a) (output_type_of a).
  intros hc ot F. induction F as [|[k v] [k' v'] l l' (E & S) F IH]; [reflexivity|]. cbn [fst snd] in *. subst k'.
  cbn [dict_of map dict_get fst snd]. fold (dict_of raw l) (dict_of raw l'). rewrite IH.
  destruct (dict_get (dict_of raw l) n); [reflexivity|]. destruct (name_eqb (txt k) n) eqn:K; [|reflexivity].
  apply name_eqb_iff in K. subst n. rewrite (subset_kept m hc ot k v v' S); [reflexivity|].
  intro I. apply N. apply in_map. exact I.
Qed.

Lemma new_in : forall a' key v, new_header m a a' -> In (key, v) a ->
  exists v', In (key, v') a' /\ subset_value m (assoc "NumPart_ThisFile"%string a) (output_type_of a) key v v'.
Proof.
  intros a' key v F. unfold new_header in F. revert F. generalize (assoc "NumPart_ThisFile"%string a) (output_type_of a).
  intros hc ot F. induction F as [|[k w] [k' w'] l l' (E & S) F IH]; intro I; [destruct I|]. cbn [fst snd] in *. subst k'.
  destruct I as [E|I].
  - injection E as -> ->. exists w'. split; [left; reflexivity|exact S].
  - destruct (IH I) as (v' & J & T). exists v'. split; [right; exact J|exact T].
Qed.

Definition kind_of (s : string) (k : file_kind) : Prop :=
  (In s ["FullVolume"; "VolumeSubset"]%string /\ k = KSnapshot) \/ (In s ["SOAP"; "SOAPSubset"]%string /\ k = KSOAP)
  \/ (In s ["FOF"; "FOFSubset"]%string /\ k = KFOF).

Lemma subset_kind : forall s s' k, subset_output_type s = Ok s' -> metadata_discriminator (Some s) = Ok k ->
  metadata_discriminator (Some s') = Ok k /\ kind_of s k.
Proof.
  intros s s' k E D. unfold subset_output_type in E.
  repeat match type of E with (if (?x =? ?y)%string then _ else _) = _ =>
    destruct (String.eqb_spec x y) as [->|?]; [injection E as <-; vm_compute in D; injection D as <-; split; [reflexivity|unfold kind_of; cbn; tauto]|] end.
  discriminate.
Qed.

Hypothesis written : write_tree argsort m t = Ok o.
Hypothesis W : well_formed m t a.
Hypothesis Pt : proper_names (objects_of t).
Hypothesis Po : proper_names o.

Lemma otype_cases : forall a', new_header m a a' ->
  (~ In "OutputType"%string (map fst a) /\ ~ In "OutputType"%string (map fst a') /\ output_type_of a = "FullVolume"%string) \/
  exists s s', In ("OutputType"%string, AText s) a /\ In ("OutputType"%string, AText s') a' /\ subset_output_type s = Ok s' /\ output_type_of a = s.
Proof.
  intros a' F. destruct (in_dec string_dec "OutputType"%string (map fst a)) as [I|I].
  - right. apply in_map_iff in I. destruct I as ([k v] & K & I). cbn in K. subst k.
    destruct (new_in a' _ _ F I) as (v' & I' & [(_ & s' & S & ->)|[(X & _)|[(X & _)|(X & _)]]]); try discriminate; [|congruence].
    pose proof (assoc_unique _ _ _ (wf_keys _ _ _ W) I) as A. unfold output_type_of in *. rewrite A in *.
    destruct v as [s|l|z]; try (vm_compute in S; discriminate). exists s, s'. auto.
  - left. split; [exact I|]. split; [rewrite (new_keys _ F); exact I|]. unfold output_type_of.
    rewrite (proj2 (assoc_none _ _) I). reflexivity.
Qed.

Lemma same_kind : forall a' k, new_header m a a' -> (forall kk, kk = dict_of raw a \/ kk = dict_of raw a' -> True) ->
  (match dict_get (dict_of raw a) (txt "OutputType") with
   | None => metadata_discriminator None
   | Some (HStr s) | Some (HBytes s) => metadata_discriminator (Some (string_of_list_ascii s))
   | Some _ => Err ValueError
   end) = Ok k ->
  (match dict_get (dict_of raw a') (txt "OutputType") with
   | None => metadata_discriminator None
   | Some (HStr s) | Some (HBytes s) => metadata_discriminator (Some (string_of_list_ascii s))
   | Some _ => Err ValueError
   end) = Ok k /\ kind_of (output_type_of a) k.
Proof.
  intros a' k F _ D. destruct (otype_cases a' F) as [(N & N' & O)|(s & s' & I & I' & S & O)].
  - rewrite (proj2 (dict_of_none raw a' _) N'). rewrite (proj2 (dict_of_none raw a _) N) in D. split; [exact D|].
    rewrite O. vm_compute in D. injection D as <-. left. cbn. tauto.
  - rewrite (dict_of_get raw a _ _ (wf_keys _ _ _ W) I) in D. 
    rewrite (dict_of_get raw a' _ _ (eq_ind_r (fun l => NoDup l) (wf_keys _ _ _ W) (new_keys _ F)) I').
    cbn [attribute_value] in *. unfold txt in *. rewrite string_of_list_ascii_of_string in *. rewrite O.
    apply subset_kind; assumption.
Qed.

Lemma nodup_new : forall a', new_header m a a' -> NoDup (map fst a').
Proof. intros a' F. rewrite (new_keys _ F). exact (wf_keys _ _ _ W). Qed.

Lemma counts_nonzero : forall old new, counts_of m old new ->
  (forall rs size, tm_shared m = Some (rs, size) -> size <> 0%Z) ->
  (forall k rs size, assoc k (tm_types m) = Some (rs, size) -> size <> 0%Z) ->
  nonzero (map inject_Z new) = nonzero (map inject_Z old).
Proof.
  intros old new (L & C) H1 H2.
  assert (E : forall i x y, nth_error old i = Some x -> nth_error new i = Some y -> is_zero (inject_Z y) = is_zero (inject_Z x)).
  { intros i x y A B. specialize (C i x y A B). unfold is_zero, zero, Qeq_bool, inject_Z. cbn [Qnum Qden].
    destruct C as [(-> & ->)|(N & [(rs & S)|(_ & k & rs & _ & S)])]; [reflexivity| |].
    - apply H1 in S. destruct x; [congruence| |]; (destruct y; [congruence| |]); reflexivity.
    - apply H2 in S. destruct x; [congruence| |]; (destruct y; [congruence| |]); reflexivity. }
  clear C H1 H2. unfold nonzero. rewrite !map_length, L. generalize 0%nat. revert new L E.
  induction old as [|x old IH]; intros [|y new] L E n; try discriminate; [reflexivity|]. injection L as L.
  cbn [length seq map combine flat_map fst snd]. rewrite (E 0%nat x y eq_refl eq_refl). rewrite IH; [reflexivity|exact L|].
  intros i x' y' A B. apply (E (S i)); assumption.
Qed.

(** A subset file is opened as the same kind of file, with the same attributes, and all of them that do not
    depend on the selection have the same values. *)
Theorem C110_opens : forall k log, open (view (objects_of t)) = Ok (k, log) -> described_copied t log ->
  exists log', open (view o) = Ok (k, log') /\ map fst log' = map fst log
    /\ forall n, ~ changes n -> dict_get log' n = dict_get log n.
Proof.
  intros k log O DC. destruct (header_written raw texts matrix numbers first_number argsort m t o a written W Pt Po) as (Hh & a' & Hh' & F).
  fold view in Hh, Hh'. unfold open, open_metadata in *. pose proof Hh as (g & G & Ga). pose proof Hh' as (g' & G' & Ga').
  rewrite G in O. rewrite G'. rewrite Ga in O. rewrite Ga'.
  match type of O with (bind ?e _) = _ => destruct e as [kk|] eqn:D; cbn [bind] in O; [|discriminate] end.
  destruct (read_metadata text_error is_date cosmology_ok kk (view (objects_of t))) as [ll|] eqn:R; cbn [bind] in O; [|discriminate].
  injection O as -> ->. destruct (same_kind a' k F (fun _ _ => I) D) as (D' & KO). rewrite D'. cbn [bind].
  pose proof (wf_keys _ _ _ W) as Nd. pose proof (nodup_new _ F) as Nd'.
  assert (PL : forall g, In g attribute_groups -> plain_name t m g) by (intros; apply (wf_plain _ _ _ W); right; right; assumption).
  assert (SG : plain_name t m "SubgridScheme") by (apply PL; cbn; tauto).
  assert (NH : ~ is_header "SubgridScheme") by (intros [X|X]; discriminate).
  assert (NP : exists v, In ("NumPart_ThisFile"%string, v) a).
  { destruct (read_built _ _ _ _ _ _ R) as (maps & post & rest & _ & P & M & _).
    apply (post_iff text_error is_date _ maps _ post M Hh) in P. destruct P as (s & ar & tb & st & d & v & _ & S2 & _ & _ & _ & S6 & _).
    rewrite (plain_array_get text_error is_date _ _ _ (txt "NumPart_ThisFile") _ S2) in S6 by (cbn; tauto || reflexivity).
    destruct (dict_get (dict_of raw a) (txt "NumPart_ThisFile")) as [x|] eqn:X; [|discriminate].
    destruct (dict_of_some raw a _ _ Nd X) as (w & I & _). eauto. }
  destruct (read_alike text_error is_date cosmology_ok (view (objects_of t)) (view o) (dict_of raw a) (dict_of raw a') k Hh Hh'
              (new_dict a' F)) with (log := log) as (log' & R' & Al).
  - intros key I. rewrite !dict_of_none, (new_keys _ F). reflexivity.
  - apply (groups_same raw texts matrix numbers first_number argsort m t o a written W Pt Po).
  - cbn [mf_columns view ReopenModel.view]. apply (same_datasets argsort m t o a written W _ texts _ SG NH).
  - cbn [mf_subgrid view ReopenModel.view]. apply (same_datasets argsort m t o a written W _ matrix _ SG NH).
  - cbn [mf_edges view ReopenModel.view]. rewrite (same_data argsort m t o a written W _ SG NH). reflexivity.
  - cbn [mf_speed view ReopenModel.view]. rewrite (same_data argsort m t o a written W _ SG NH). reflexivity.
  - intros ->. destruct KO as [(_ & X)|[(_ & X)|(_ & X)]]; discriminate.
  - intros ->. destruct KO as [(_ & X)|[(X & _)|(_ & X)]]; try discriminate.
    destruct (dict_get (dict_of raw a) (txt "NumSubhalos_ThisFile")) as [v|] eqn:E.
    + destruct (dict_of_some raw a _ _ Nd E) as (w & J & _). destruct (new_in a' _ _ F J) as (w' & J' & S).
      destruct S as [(Y & _)|[(Y & _)|[(_ & _ & rs & size & _ & ->)|(_ & _ & Y & _)]]]; try discriminate.
      * exists (inject_Z size), []. rewrite (dict_of_get raw a' _ _ Nd' J'). reflexivity.
      * exfalso. destruct (Y eq_refl). cbn in X. destruct X as [X|[X|[]]]; congruence.
    + exfalso. apply read_iff in R. destruct R as (maps & post & sub & gs & c & C & P & U & _).
      unfold unpack_subhalo_number in U.
      assert (B : built text_error is_date (view (objects_of t)) (get_metadata (view (objects_of t)) ++ maps ++ post ++ [])).
      { exists maps, post, []. split; [reflexivity|]. split; [exact P|]. split; [apply (maps_aside _ _ _ C)|intros ? []]. }
      rewrite app_nil_r in B. destruct (get_arrays _ _ _ _ _ B Hh) as (_ & _ & _ & NS & _). rewrite NS, E in U. discriminate.
  - intros -> NT l E. destruct (dict_of_some raw a _ _ Nd E) as (w & J & X).
    destruct KO as [(Y & _)|[(_ & Y)|(_ & Y)]]; try discriminate.
    destruct (new_in a' _ _ F J) as (w' & J' & S).
    destruct S as [(Z & _)|[(_ & _ & old & new & Ho & -> & Co)|[(Z & _)|(_ & Z & _)]]]; try discriminate.
    + rewrite (assoc_unique _ _ _ Nd J) in Ho. injection Ho as ->. cbn in X. injection X as ->.
      exists (map inject_Z new). split; [rewrite (dict_of_get raw a' _ _ Nd' J'); reflexivity|].
      apply (dict_of_none raw) in NT. destruct (wf_types _ _ _ W) as [T|(T1 & T2)]; [contradiction|].
      apply counts_nonzero; assumption.
    + exfalso. destruct (Z eq_refl). cbn in Y. destruct Y as [Y|[Y|[]]]; congruence.
  - exact R.
  - intros n gm I. destruct (DC n gm I) as (p & Sp & -> & AC).
    apply (copied_same raw texts matrix numbers first_number argsort m t o a written W Pt Po p Sp AC).
  - exists log'. rewrite R'. split; [reflexivity|]. split; [apply alike_names; exact Al|].
    intros n N. apply (alike_get _ _ Al n N).
Qed.

(** The attributes that change: the type of file, the numbers of particles, the number of subhalos. *)
Theorem C110_type : forall k log', open (view o) = Ok (k, log') -> forall s s',
  In ("OutputType"%string, AText s) a -> subset_output_type s = Ok s' -> dict_get log' (txt "output_type") = Some (VText (txt s')).
Proof.
  intros k log' O s s' I S. destruct (header_written raw texts matrix numbers first_number argsort m t o a written W Pt Po) as (_ & a' & Hh' & F).
  fold view in Hh'. unfold open, open_metadata in O. pose proof Hh' as (g' & G' & Ga'). rewrite G' in O.
  match type of O with (bind ?e _) = _ => destruct e as [kk|] eqn:D; cbn [bind] in O; [|discriminate] end.
  destruct (read_metadata text_error is_date cosmology_ok kk (view o)) as [ll|] eqn:R; cbn [bind] in O; [|discriminate].
  injection O as -> ->. destruct (C77_texts _ _ _ _ _ _ _ R Hh' "OutputType"%string "output_type"%string) as (A & _); [cbn; tauto|].
  apply (A (txt s') (HStr (txt s'))); [|left; reflexivity]. unfold has.
  destruct (otype_cases a' F) as [(N & _)|(s1 & s1' & I1 & I1' & S1 & _)].
  - destruct N. apply (in_map fst) in I. exact I.
  - pose proof (assoc_unique _ _ _ (wf_keys _ _ _ W) I) as E. pose proof (assoc_unique _ _ _ (wf_keys _ _ _ W) I1) as E1.
    rewrite E in E1. injection E1 as <-. rewrite S in S1. injection S1 as <-.
    apply (dict_of_get raw a' _ _ (nodup_new _ F) I1').
Qed.

Theorem C110_numbers : forall log', open (view o) = Ok (KSnapshot, log') -> forall old i n c,
  In ("NumPart_ThisFile"%string, AInts old) a -> nth_error type_names i = Some n -> nth_error old i = Some c ->
  exists c', count_of m i c c' /\ dict_get log' (txt "n_" ++ txt n) = Some (VNum (inject_Z c')).
Proof.
  intros log' O old i n c I N E. destruct (header_written raw texts matrix numbers first_number argsort m t o a written W Pt Po) as (_ & a' & Hh' & F).
  fold view in Hh'. unfold open, open_metadata in O. pose proof Hh' as (g' & G' & Ga'). rewrite G' in O. rewrite Ga' in O.
  match type of O with (bind ?e _) = _ => destruct e as [kk|] eqn:D; cbn [bind] in O; [|discriminate] end.
  destruct (read_metadata text_error is_date cosmology_ok kk (view o)) as [ll|] eqn:R; cbn [bind] in O; [|discriminate].
  injection O as -> ->. pose proof (wf_keys _ _ _ W) as Nd. pose proof (nodup_new _ F) as Nd'.
  assert (OT : (output_type_of a = "FullVolume" \/ output_type_of a = "VolumeSubset")%string).
  { destruct (otype_cases a' F) as [(_ & _ & X)|(s1 & s1' & I1 & I1' & S1 & X)]; [left; exact X|]. rewrite X.
    rewrite (dict_of_get raw a' _ _ Nd' I1') in D. cbn [attribute_value] in D. unfold txt in D. rewrite string_of_list_ascii_of_string in D.
    clear -S1 D. unfold subset_output_type in S1.
    repeat match type of S1 with (if (?x =? ?y)%string then _ else _) = _ =>
      destruct (String.eqb_spec x y) as [Q1|?]; [rewrite Q1 in *; injection S1 as <-; first [left; reflexivity|right; reflexivity|vm_compute in D; discriminate]|] end.
    discriminate. }
  destruct (new_in a' _ _ F I) as (v' & I' & S).
  destruct S as [(Z & _)|[(_ & _ & old' & new & Ho & -> & (L & Co))|[(Z & _)|(_ & Z & _)]]]; try discriminate.
  2:{ exfalso. destruct (Z eq_refl). destruct OT; contradiction. }
  rewrite (assoc_unique _ _ _ Nd I) in Ho. injection Ho as <-.
  destruct (nth_error new i) as [c'|] eqn:E'.
  2:{ exfalso. apply nth_error_None in E'. assert (nth_error old i <> None) by congruence. apply nth_error_Some in H. lia. }
  exists c'. split; [apply (Co i); assumption|].
  destruct (C77_numbers _ _ _ _ _ _ _ R Hh') as (v & Hv & A). unfold has in Hv.
  rewrite (dict_of_get raw a' _ _ Nd' I') in Hv. cbn [attribute_value] in Hv. injection Hv as <-.
  apply (A i n N). apply item_iff. cbn [item_at]. rewrite (map_nth_error _ _ _ E'). reflexivity.
Qed.

Theorem C110_subhalos : forall log', open (view o) = Ok (KSOAP, log') ->
  exists rs size, tm_shared m = Some (rs, size) /\ dict_get log' (txt "n_subhalos") = Some (VInt size).
Proof.
  intros log' O. destruct (header_written raw texts matrix numbers first_number argsort m t o a written W Pt Po) as (_ & a' & Hh' & F).
  fold view in Hh'. unfold open, open_metadata in O. pose proof Hh' as (g' & G' & Ga'). rewrite G' in O. rewrite Ga' in O.
  match type of O with (bind ?e _) = _ => destruct e as [kk|] eqn:D; cbn [bind] in O; [|discriminate] end.
  destruct (read_metadata text_error is_date cosmology_ok kk (view o)) as [ll|] eqn:R; cbn [bind] in O; [|discriminate].
  injection O as -> ->. pose proof (wf_keys _ _ _ W) as Nd. pose proof (nodup_new _ F) as Nd'.
  assert (OT : (output_type_of a = "SOAP" \/ output_type_of a = "SOAPSubset")%string).
  { destruct (otype_cases a' F) as [(_ & N' & _)|(s1 & s1' & I1 & I1' & S1 & X)].
    - rewrite (proj2 (dict_of_none raw a' _) N') in D. vm_compute in D. discriminate.
    - rewrite X. rewrite (dict_of_get raw a' _ _ Nd' I1') in D. cbn [attribute_value] in D. unfold txt in D. rewrite string_of_list_ascii_of_string in D.
      clear -S1 D. unfold subset_output_type in S1.
      repeat match type of S1 with (if (?x =? ?y)%string then _ else _) = _ =>
        destruct (String.eqb_spec x y) as [Q1|?]; [rewrite Q1 in *; injection S1 as <-; first [left; reflexivity|right; reflexivity|vm_compute in D; discriminate]|] end.
      discriminate. }
  destruct (dict_get (dict_of raw a') (txt "NumSubhalos_ThisFile")) as [v|] eqn:E.
  - assert (J : In "NumSubhalos_ThisFile"%string (map fst a)).
    { rewrite <- (new_keys _ F). destruct (dict_of_some raw a' _ _ Nd' E) as (w & J & _). apply (in_map fst) in J. exact J. }
    apply in_map_iff in J. destruct J as ([k0 w] & K & J). cbn in K. subst k0. destruct (new_in a' _ _ F J) as (w' & J' & S).
    destruct S as [(Y & _)|[(Y & _)|[(_ & _ & rs & size & Sh & ->)|(_ & _ & Y & _)]]]; try discriminate.
    + exists rs, size. split; [exact Sh|]. rewrite (read_subhalos _ _ _ _ _ (inject_Z size) [] _ R Hh').
      * unfold truncate, inject_Z. cbn [Qnum Qden]. rewrite Z.quot_1_r. reflexivity.
      * rewrite (dict_of_get raw a' _ _ Nd' J'). reflexivity.
    + exfalso. destruct (Y eq_refl). destruct OT; contradiction.
  - exfalso. apply read_iff in R. destruct R as (maps & post & sub & gs & c & C & P & U & _). unfold unpack_subhalo_number in U.
    assert (B : built text_error is_date (view o) (get_metadata (view o) ++ maps ++ post ++ [])).
    { exists maps, post, []. split; [reflexivity|]. split; [exact P|]. split; [apply (maps_aside _ _ _ C)|intros ? []]. }
    rewrite app_nil_r in B. destruct (get_arrays _ _ _ _ _ B Hh') as (_ & _ & _ & NS & _). rewrite NS, E in U. discriminate.
Qed.

(** Groups whose names have none of the words in them are seen with the same attributes and members at every depth. *)
Theorem C110_groups : forall k q, plain_name t m k -> k <> "Header"%string -> k <> "Parameters"%string -> slash_free (k :: q) ->
  dict_get (mf_groups (view o)) (path_name (k :: q)) = dict_get (mf_groups (view (objects_of t))) (path_name (k :: q)).
Proof.
  intros k q Pl N1 N2 S. assert (NH : ~ is_header k) by (intros [X|X]; contradiction).
  cbn [mf_groups view ReopenModel.view]. rewrite !groups_get by (assumption || discriminate).
  apply (same_group raw argsort m t o a written W _ Pl NH).
Qed.

End Written.

(** * Examples *)

Definition proper_check {V} (o : out V) : bool :=
  forallb (fun pe => match fst pe with
                     | [] => false
                     | p => forallb (fun k => negb (existsb (Ascii.eqb slash) (txt k))) p
                     end) o.
Lemma proper_checked : forall V (o : out V), proper_check o = true -> proper_names o.
Proof.
  intros V o H p e I. unfold proper_check in H. rewrite forallb_forall in H. specialize (H _ I). cbn [fst] in H.
  destruct p as [|k p]; [discriminate|]. split; [discriminate|]. apply Forall_forall. intros x J (y & z & ->).
  rewrite forallb_forall in H. specialize (H _ J). apply negb_true_iff in H.
  assert (E : existsb (Ascii.eqb slash) (txt (y ++ "/" ++ z)) = true); [|congruence].
  apply existsb_exists. exists slash. split; [|apply Ascii.eqb_refl]. rewrite !txt_app. apply in_or_app. right. left. reflexivity.
Qed.

Section Examples.
Open Scope string_scope.

Definition ex_header : attrs := [("NumPart_ThisFile", AInts [4; 0]%Z); ("OutputType", AText "FullVolume"); ("RunName", AText "test")].
Definition ex_view : out Z -> mfile :=
  view (fun z => HNum (inject_Z z)) (fun _ => [txt "H"]) (fun _ => []) (fun _ => []) (fun _ => 1%Q).
Definition ex_open := open_metadata ValueError (fun _ => false) (fun _ => Ok tt).
Definition ex_log (o : out Z) : list (name * mval) := match ex_open (ex_view o) with Ok (_, l) => l | Err _ => [] end.

Lemma plain_checked : forall (t : tree Z) m l,
  forallb (fun g => negb (skips (metadata_words (map fst (find_links t)) m) g)) l = true -> forall g, In g l -> plain_name t m g.
Proof.
  intros t m l H g I. rewrite forallb_forall in H. specialize (H g I). apply metadata_words_plain. apply negb_true_iff. exact H.
Qed.

Example ex_well_formed : well_formed ex_mask (ex_tree [] []) ex_header.
Proof.
  constructor.
  - unfold ex_tree, ex_part. uniq.
  - eexists. do 3 right. left. reflexivity.
  - nodup.
  - intros n H. cbn in H. kids; discriminate.
  - apply plain_checked. vm_compute. reflexivity.
  - right. split; [discriminate|]. intros k rs size H. cbn in H. destruct (k =? "PartType0"); [|discriminate]. injection H as _ <-. discriminate.
Qed.

Example ex_opened : ex_open (ex_view (objects_of (ex_tree [] []))) = Ok (KSnapshot, ex_log (objects_of (ex_tree [] [])))
  /\ dict_get (ex_log (objects_of (ex_tree [] []))) (txt "n_gas") = Some (VNum (inject_Z 4))
  /\ described_copied (ex_tree [] []) (ex_log (objects_of (ex_tree [] []))).
Proof.
  split; [vm_compute; reflexivity|]. split; [vm_compute; reflexivity|].
  intros n gm I.
  assert (E : n = txt "gas_properties" /\ gm_group gm = txt "PartType0").
  { vm_compute in I. repeat (destruct I as [I|I]; [first [discriminate|injection I as <- <-; split; reflexivity]|]). destruct I. }
  destruct E as (_ & ->). exists ["PartType0"].
  assert (P : plain_path (ex_tree [] []) ["PartType0"; "Masses"] /\ plain_path (ex_tree [] []) ["PartType0"; "MassAlias"])
    by (split; apply ex_plain; vm_compute; reflexivity).
  split; [apply plain_slash; intro J; repeat (destruct J as [J|J]; [vm_compute in J; discriminate|]); destruct J|].
  split; [reflexivity|]. split; [discriminate|]. eexists _, _.
  split; [econstructor; [do 4 right; left; reflexivity|constructor]|]. split; [discriminate|].
  intros k x H. cbn in H. kids.
  - exists [], (ex_field [10; 11; 12; 13]%Z), [("Units", AText "mass")]. split; [constructor|apply P].
  - exists [], (ex_field [10; 11; 12; 13]%Z), [("Units", AText "mass")]. split; [repeat constructor|apply P].
Qed.

Example ex_opened_again : ex_open (ex_view ex_out) = Ok (KSnapshot, ex_log ex_out)
  /\ dict_get (ex_log ex_out) (txt "n_gas") = Some (VNum (inject_Z 3))
  /\ dict_get (ex_log ex_out) (txt "output_type") = Some (VText (txt "VolumeSubset"))
  /\ dict_get (ex_log ex_out) (txt "gas_properties") = dict_get (ex_log (objects_of (ex_tree [] []))) (txt "gas_properties").
Proof. vm_compute. repeat split. Qed.

Example ex_proper : proper_names (objects_of (ex_tree [] [])) /\ proper_names ex_out.
Proof. split; apply proper_checked; vm_compute; reflexivity. Qed.

(** A type of which nothing is selected is gone when the header does not say which types there can be. *)
Definition none_mask : tmask :=
  mk_tmask None [("PartType0", ([], 0)%Z)] [("PartType0", [0; 0]%Z)] [("PartType0", [0; 0]%Z)] [0%nat; 1%nat] ["PartType0"].

Theorem C110_empty_type_refuted : exists o log log',
  write_tree stable_argsort none_mask (ex_tree [] []) = Ok o
  /\ ex_open (ex_view (objects_of (ex_tree [] []))) = Ok (KSnapshot, log)
  /\ ex_open (ex_view o) = Ok (KSnapshot, log')
  /\ (exists gm, dict_get log (txt "gas_properties") = Some (VGroup gm))
  /\ dict_get log' (txt "gas_properties") = None.
Proof.
  destruct (write_tree stable_argsort none_mask (ex_tree [] [])) as [o|] eqn:E; [|vm_compute in E; discriminate].
  exists o, (ex_log (objects_of (ex_tree [] []))), (ex_log o). split; [reflexivity|].
  vm_compute in E. injection E as <-. split; [vm_compute; reflexivity|]. split; [vm_compute; reflexivity|].
  split; [eexists; vm_compute; reflexivity|vm_compute; reflexivity].
Qed.

(** The number of groups of a catalogue stays that of the whole file. *)
Definition fof_tree : tree Z :=
  [("Cells", NGroup [] [("Centres", NData (ex_field [5; 6]%Z) []);
                        ("Counts", NGroup [] [("Groups", NData (ex_field [2; 2]%Z) [])]);
                        ("Meta-data", NGroup [("dimension", AInts [2; 1; 1]%Z)] []);
                        ("OffsetsInFile", NGroup [] [("Groups", NData (ex_field [0; 2]%Z) [])])]);
   ("Groups", NGroup [] [("Masses", NData (ex_field [10; 11; 12; 13]%Z) [])]);
   ("Header", NGroup [("NumPart_ThisFile", AInts [0; 0]%Z); ("NumGroup_ThisFile", AInts [4]%Z); ("OutputType", AText "FOF")] [])].
Definition fof_mask : tmask :=
  mk_tmask (Some ([(0, 1); (2, 4)], 3)%Z) [] [("shared", [1; 2]%Z)] [("shared", [0; 1]%Z)] [0%nat; 1%nat] ["Groups"].

Theorem C110_group_number_refuted : exists o d log',
  write_tree stable_argsort fof_mask fof_tree = Ok o
  /\ at_path o ["Groups"; "Masses"] = Some (EData d []) /\ length (fd_rows d) = 3%nat
  /\ ex_open (ex_view o) = Ok (KFOF, log')
  /\ dict_get log' (txt "output_type") = Some (VText (txt "FOFSubset"))
  /\ dict_get log' (txt "num_group") = Some (VHeader (HArr [inject_Z 4])).
Proof.
  destruct (write_tree stable_argsort fof_mask fof_tree) as [o|] eqn:E; [|vm_compute in E; discriminate].
  exists o, (ex_field [10; 12; 13]%Z), (ex_log o). split; [reflexivity|].
  vm_compute in E. injection E as <-. repeat split; vm_compute; reflexivity.
Qed.

(** A catalogue of subhalos. *)
Definition soap_tree : tree Z :=
  [("Cells", NGroup [] [("Centres", NData (ex_field [5; 6]%Z) []);
                        ("Counts", NGroup [] [("Subhalos", NData (ex_field [2; 2]%Z) [])]);
                        ("Meta-data", NGroup [("dimension", AInts [2; 1; 1]%Z)] []);
                        ("OffsetsInFile", NGroup [] [("Subhalos", NData (ex_field [0; 2]%Z) [])])]);
   ("Header", NGroup [("NumPart_ThisFile", AInts [0; 0]%Z); ("NumSubhalos_ThisFile", AInts [4]%Z); ("OutputType", AText "SOAP");
                      ("SubhaloTypes", ARaw 0)] []);
   ("SO", NGroup [] [("200_crit", NGroup [] [("Masses", NData (ex_field [10; 11; 12; 13]%Z) [])])])].
Definition soap_mask : tmask :=
  mk_tmask (Some ([(0, 1); (2, 4)], 3)%Z) [] [("shared", [1; 2]%Z)] [("shared", [0; 1]%Z)] [0%nat; 1%nat] ["SO/200_crit"].
Definition soap_view : out Z -> mfile :=
  view (fun _ => HStrs [txt "SO/200_crit"]) (fun _ => [txt "H"]) (fun _ => []) (fun _ => []) (fun _ => 1%Q).

Example soap_opened : exists log o log',
  write_tree stable_argsort soap_mask soap_tree = Ok o
  /\ ex_open (soap_view (objects_of soap_tree)) = Ok (KSOAP, log) /\ dict_get log (txt "n_subhalos") = Some (VInt 4)
  /\ ex_open (soap_view o) = Ok (KSOAP, log') /\ dict_get log' (txt "n_subhalos") = Some (VInt 3)
  /\ (exists gm, dict_get log' (txt "spherical_overdensity_200_crit_properties") = Some (VGroup gm)
                 /\ gm_paths gm = [txt "SO/200_crit/Masses"]).
Proof.
  destruct (write_tree stable_argsort soap_mask soap_tree) as [o|] eqn:E; [|vm_compute in E; discriminate].
  vm_compute in E. injection E as <-. do 3 eexists. split; [reflexivity|]. split; [vm_compute; reflexivity|].
  split; [vm_compute; reflexivity|]. split; [vm_compute; reflexivity|]. split; [vm_compute; reflexivity|].
  eexists. split; vm_compute; reflexivity.
Qed.
End Examples.

Print Assumptions C110_opens.
Print Assumptions C110_type.
Print Assumptions C110_numbers.
Print Assumptions C110_subhalos.
Print Assumptions C110_groups.
Print Assumptions C110_empty_type_refuted.
Print Assumptions C110_group_number_refuted.

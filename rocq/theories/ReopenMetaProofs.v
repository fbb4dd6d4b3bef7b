(** Metadata objects of two files that differ in few attributes of the header. *)
From Coq Require Import String Ascii List Arith Lia QArith ZArith Bool.
From Verif Require Import Base BaseLemmas NamesModel SubsetModel NamesProofs MetaModel MetaSpec MetaProofs MetaHeaderProofs
  MetaGroupProofs TreeModel ReopenSpec.
Import ListNotations.
Open Scope list_scope.

Definition alike (a b : name * mval) : Prop := fst a = fst b /\ (changes (fst a) \/ snd a = snd b).

Lemma alike_refl : forall l, Forall2 alike l l.
Proof. induction l as [|a l IH]; constructor; [split; [reflexivity|right; reflexivity]|exact IH]. Qed.

Lemma alike_get : forall l l', Forall2 alike l l' -> forall n, ~ changes n -> dict_get l' n = dict_get l n.
Proof.
  intros l l' F n N. induction F as [|[k v] [k' v'] l l' (E & D) F IH]; [reflexivity|]. cbn [fst snd] in E, D. subst k'.
  cbn [dict_get]. rewrite IH. destruct (dict_get l n); [reflexivity|]. destruct (name_eqb k n) eqn:K; [|reflexivity].
  apply name_eqb_iff in K. subst k. destruct D as [D | -> ]; [contradiction|reflexivity].
Qed.

Lemma alike_names : forall l l', Forall2 alike l l' -> map fst l' = map fst l.
Proof. intros l l' F. induction F as [|a b l l' (E & _) F IH]; [reflexivity|]. cbn. rewrite E, IH. reflexivity. Qed.

Lemma changes_dec : forall n, {changes n} + {~ changes n}.
Proof. intro n. apply in_dec. apply list_eq_dec. apply ascii_dec. Qed.

Section Two.
Variable text_error : pyerr.
Variable is_date : name -> bool.
Variable cosmology_ok : dict -> res unit.
Variables (f f' : mfile) (h h' : dict) (k : file_kind).
Hypothesis Hh : header_is f h.
Hypothesis Hh' : header_is f' h'.
Hypothesis Hkeys : forall n, ~ In n (map txt rewritten) -> dict_get h' n = dict_get h n.
Hypothesis Hthere : forall key, In key rewritten -> (dict_get h' (txt key) = None <-> dict_get h (txt key) = None).
Hypothesis Hgroups : forall g, In (txt g) (map fst metadata_fields_to_read) -> g <> "Header"%string ->
  option_map gi_attrs (dict_get (mf_groups f') (txt g)) = option_map gi_attrs (dict_get (mf_groups f) (txt g)).
Hypothesis Hcols : mf_columns f' = mf_columns f.
Hypothesis Hsub : mf_subgrid f' = mf_subgrid f.
Hypothesis Hedges : mf_edges f' = mf_edges f.
Hypothesis Hspeed : mf_speed f' = mf_speed f.

Lemma metadata_alike : Forall2 alike (get_metadata f) (get_metadata f').
Proof.
  unfold get_metadata, metadata_fields_to_read. cbn [map fst snd].
  assert (G : forall g n, In (txt g) (map fst metadata_fields_to_read) -> g <> "Header"%string ->
    alike (n, match dict_get (mf_groups f) (txt g) with Some x => VDict (gi_attrs x) | None => VNone end)
          (n, match dict_get (mf_groups f') (txt g) with Some x => VDict (gi_attrs x) | None => VNone end)).
  { intros g n I N. split; [reflexivity|right]. cbn [snd]. pose proof (Hgroups g I N) as E.
    destruct (dict_get (mf_groups f') (txt g)), (dict_get (mf_groups f) (txt g)); cbn in E; congruence. }
  do 2 (constructor; [apply G; [cbn; tauto|discriminate]|]).
  constructor; [split; [reflexivity|left; left; reflexivity]|].
  do 9 (constructor; [apply G; [cbn; tauto|discriminate]|]). constructor.
Qed.

Lemma columns_same : columns_of k f' = columns_of k f.
Proof. unfold columns_of, get_mapping_metadata. rewrite Hcols, Hsub. reflexivity. Qed.

Ltac key := rewrite Hkeys; [|let I := fresh in intro I; repeat (destruct I as [I|I]; [vm_compute in I; discriminate|]); destruct I].

Lemma singles_same : unpack_singles (Some h') = unpack_singles (Some h).
Proof.
  unfold unpack_singles, header_unpack_single_float. cbn [map]. unfold unpack_single, look. cbn [bind fst].
  do 4 key. reflexivity.
Qed.

Lemma tables_same : concat_ok (map (unpack_mass_table (Some h')) header_unpack_mass_tables)
  = concat_ok (map (unpack_mass_table (Some h)) header_unpack_mass_tables).
Proof. unfold header_unpack_mass_tables. cbn [map]. unfold unpack_mass_table, look. cbn [bind fst]. do 2 key. reflexivity. Qed.

Lemma date_same : unpack_date is_date (Some h') = unpack_date is_date (Some h).
Proof. unfold unpack_date, look. cbn [bind]. do 2 key. reflexivity. Qed.

Lemma concat_alike : forall A (t : list A) (u u' : A -> res (list (name * mval))) r,
  (forall x r, In x t -> u x = Ok r -> exists r', u' x = Ok r' /\ Forall2 alike r r') ->
  concat_ok (map u t) = Ok r -> exists r', concat_ok (map u' t) = Ok r' /\ Forall2 alike r r'.
Proof.
  intros A t u u'. induction t as [|x t IH]; intros r H C.
  - apply concat_ok_nil in C. subst r. exists []. split; [reflexivity|constructor].
  - cbn [map] in C. apply concat_ok_cons in C. destruct C as (a & b & Ea & Eb & ->).
    destruct (H x a (or_introl eq_refl) Ea) as (a' & Ea' & Fa).
    destruct (IH b (fun y r I => H y r (or_intror I)) Eb) as (b' & Eb' & Fb).
    exists (a' ++ b'). split; [apply concat_ok_cons; eauto 6|]. apply Forall2_app; assumption.
Qed.

Lemma listed_changes : forall field nm, In field (map txt rewritten) ->
  In (field, nm) (header_unpack_arrays ++ header_unpack_string) -> changes nm.
Proof.
  intros field nm I J. unfold changes.
  repeat (destruct I as [<-|I]; [repeat (destruct J as [J|J]; [vm_compute in J; first [discriminate|injection J as <-; cbn; tauto]|]); destruct J|]).
  destruct I.
Qed.

Lemma there : forall field v, In field (map txt rewritten) -> dict_get h field = Some v -> exists v', dict_get h' field = Some v'.
Proof.
  intros field v I E. apply in_map_iff in I. destruct I as (key & <- & I). destruct (dict_get h' (txt key)) eqn:D; [eauto|].
  apply (Hthere _ I) in D. congruence.
Qed.

Lemma rewritten_dec : forall n, {In n (map txt rewritten)} + {~ In n (map txt rewritten)}.
Proof. intro n. apply in_dec. apply list_eq_dec. apply ascii_dec. Qed.

Lemma arrays_alike : forall a r, unpack_arrays text_error (Some h) a = Ok r ->
  exists r', unpack_arrays text_error (Some h') a = Ok r' /\ Forall2 alike r r'.
Proof.
  intros a r H. unfold unpack_arrays in *. revert H. apply concat_alike. intros [field nm] s I U.
  destruct (rewritten_dec field) as [W|W].
  - assert (B : name_eqb nm (txt "boxsize") = false).
    { clear -I W. repeat (destruct W as [<-|W]; [repeat (destruct I as [I|I]; [vm_compute in I; first [discriminate|injection I as <-; reflexivity]|]); destruct I|]). destruct W. }
    unfold unpack_array, look in *. cbn [bind fst snd] in *. rewrite B in *. destruct (dict_get h field) as [v|] eqn:D.
    + injection U as <-. destruct (there _ _ W D) as (v' & ->). eexists. split; [reflexivity|].
      constructor; [|constructor]. split; [reflexivity|left]. cbn [fst]. apply (listed_changes field); [exact W|].
      apply in_or_app. left. exact I.
    + injection U as <-. apply in_map_iff in W. destruct W as (key & <- & W). apply (Hthere _ W) in D. rewrite D.
      exists []. split; [reflexivity|constructor].
  - exists s. split; [|apply alike_refl]. unfold unpack_array, look in *. cbn [bind fst snd] in *. rewrite Hkeys by exact W. exact U.
Qed.

Lemma strings_alike : forall r, concat_ok (map (unpack_string (Some h)) header_unpack_string) = Ok r ->
  exists r', concat_ok (map (unpack_string (Some h')) header_unpack_string) = Ok r' /\ Forall2 alike r r'.
Proof.
  intros r. apply concat_alike. intros [field nm] s I U. unfold unpack_string, look in *. cbn [bind fst snd] in *.
  injection U as <-. eexists. split; [reflexivity|]. constructor; [|constructor]. split; [reflexivity|]. cbn [fst snd].
  destruct (rewritten_dec field) as [W|W].
  - left. apply (listed_changes field); [exact W|]. apply in_or_app. right. exact I.
  - right. rewrite Hkeys by exact W. reflexivity.
Qed.

Lemma numbers_alike : forall v v', Forall2 alike (number_log v) (number_log v').
Proof.
  intros v v'. unfold number_log, particle_name_underscores. cbn [length seq combine map fst snd].
  repeat (constructor; [split; [reflexivity|left; unfold changes; vm_compute; tauto]|]). constructor.
Qed.

Lemma raw_same : raw f' "HydroScheme" = raw f "HydroScheme".
Proof.
  unfold raw. pose proof (Hgroups "HydroScheme") as E. cbv beta in E.
  assert (I : In (txt "HydroScheme") (map fst metadata_fields_to_read)) by (cbn; tauto).
  specialize (E I ltac:(discriminate)).
  destruct (dict_get (mf_groups f') (txt "HydroScheme")), (dict_get (mf_groups f) (txt "HydroScheme")); cbn in E; congruence.
Qed.

Lemma post_alike : forall maps post, set_aside maps ->
  postprocess_header text_error is_date f (get_metadata f ++ maps) = Ok post ->
  exists post', postprocess_header text_error is_date f' (get_metadata f' ++ maps) = Ok post' /\ Forall2 alike post post'.
Proof.
  intros maps post M P. apply (post_iff text_error is_date f maps h post M Hh) in P.
  destruct P as (s & a & t & st & d & v & S1 & S2 & S3 & S4 & S5 & S6 & ->).
  destruct (arrays_alike _ _ S2) as (a' & S2' & Fa). destruct (strings_alike _ S4) as (st' & S4' & Fst).
  assert (exists v', dict_get a' (txt "num_part") = Some (VHeader v')) as (v' & S6').
  { rewrite (plain_array_get text_error is_date _ _ _ (txt "NumPart_ThisFile") _ S2) in S6 by (cbn; tauto || reflexivity).
    destruct (dict_get h (txt "NumPart_ThisFile")) as [x|] eqn:D; [|discriminate].
    destruct (there (txt "NumPart_ThisFile") x) as (x' & D'); [cbn; tauto|exact D|].
    exists x'. rewrite (plain_array_get text_error is_date _ _ _ (txt "NumPart_ThisFile") _ S2') by (cbn; tauto || reflexivity).
    rewrite D'. reflexivity. }
  eexists. split.
  - apply (post_iff text_error is_date f' maps h' _ M Hh'). exists s, a', t, st', d, v'.
    rewrite singles_same, tables_same, date_same. repeat (split; [eassumption|]). reflexivity.
  - unfold radiation. rewrite Hedges, Hspeed, raw_same.
    repeat (apply Forall2_app; [first [apply alike_refl|assumption|apply numbers_alike]|]). apply alike_refl.
Qed.


Hypothesis Hkind : k <> KLineOfSight.
Hypothesis Hsoap : k = KSOAP -> exists x l, dict_get h' (txt "NumSubhalos_ThisFile") = Some (HArr (x :: l)).
Hypothesis Htypes : k = KSnapshot -> dict_get h (txt "CanHaveTypes") = None -> forall l,
  dict_get h (txt "NumPart_ThisFile") = Some (HArr l) ->
  exists l', dict_get h' (txt "NumPart_ThisFile") = Some (HArr l') /\ nonzero l' = nonzero l.

Lemma present_same : forall log log' gs, built text_error is_date f log -> built text_error is_date f' log' ->
  present_groups k f log = Ok gs -> present_groups k f' log' = Ok gs.
Proof.
  intros log log' gs B B' P.
  destruct (get_arrays _ _ _ _ _ B Hh) as (_ & NP & _ & _ & HT & _ & ST).
  destruct (get_arrays _ _ _ _ _ B' Hh') as (_ & NP' & _ & _ & HT' & _ & ST').
  unfold present_groups in *. rewrite HT, NP, ST in P. rewrite HT', NP', ST'.
  revert HT' ST'. do 2 key. intros _ _. destruct k; try exact P; [|congruence].
  destruct (dict_get h (txt "CanHaveTypes")) as [c|] eqn:C; cbn [option_map] in *.
  - destruct (dict_get h (txt "NumPart_ThisFile")) as [v|] eqn:D; cbn [option_map] in *; [|destruct c; discriminate].
    destruct (there (txt "NumPart_ThisFile") v) as (v' & ->); [cbn; tauto|exact D|]. exact P.
  - destruct (dict_get h (txt "NumPart_ThisFile")) as [[l|x|s|s|l]|] eqn:D; cbn [option_map] in *; try discriminate.
    destruct (Htypes eq_refl eq_refl l eq_refl) as (l' & -> & E). cbn [option_map]. rewrite E. exact P.
Qed.

Lemma all_ok_same : forall A B (u u' : A -> res B) l r, all_ok (map u l) = Ok r ->
  (forall x y, In x l -> u x = Ok y -> In y r -> u' x = Ok y) -> all_ok (map u' l) = Ok r.
Proof.
  intros A B u u'. induction l as [|x l IH]; intros r E H; [exact E|]. cbn [map all_ok] in *.
  destruct (u x) as [y|] eqn:U; cbn [bind] in E; [|discriminate].
  destruct (all_ok (map u l)) as [ys|] eqn:T; cbn [bind] in E; [|discriminate]. injection E as <-.
  rewrite (H x y (or_introl eq_refl) U (or_introl eq_refl)). cbn [bind].
  rewrite (IH ys eq_refl); [reflexivity|]. intros z w I V J. apply H; [right; exact I|exact V|right; exact J].
Qed.

Theorem read_alike : forall log, read_metadata text_error is_date cosmology_ok k f = Ok log ->
  (forall n gm, In (n, VGroup gm) log -> exists g g', dict_get (mf_groups f) (gm_group gm) = Some g
     /\ dict_get (mf_groups f') (gm_group gm) = Some g' /\ gi_keys g' = gi_keys g) ->
  exists log', read_metadata text_error is_date cosmology_ok k f' = Ok log' /\ Forall2 alike log log'.
Proof.
  intros log R G. apply read_iff in R. destruct R as (maps & post & sub & gs & c & C & P & U & L & X & E).
  pose proof (maps_aside _ _ _ C) as MA. destruct (post_alike maps post MA P) as (post' & P' & Fp).
  assert (B : built text_error is_date f (get_metadata f ++ maps ++ post ++ [])) by (exists maps, post, []; split; [reflexivity|split; [assumption|split; [assumption|first [assumption|intros ? []]]]]).
  assert (B' : built text_error is_date f' (get_metadata f' ++ maps ++ post' ++ [])) by (exists maps, post', []; split; [reflexivity|split; [assumption|split; [assumption|first [assumption|intros ? []]]]]).
  rewrite app_nil_r in B, B'.
  assert (exists sub', (match k with KSOAP => unpack_subhalo_number (get_metadata f' ++ maps ++ post') | _ => Ok [] end) = Ok sub'
          /\ Forall2 alike sub sub') as (sub' & U' & Fs).
  { destruct k; try (injection U as <-; exists []; split; [reflexivity|constructor]).
    destruct (Hsoap eq_refl) as (x & l & D). destruct (get_arrays _ _ _ _ _ B' Hh') as (_ & _ & _ & NS & _).
    unfold unpack_subhalo_number in *. rewrite NS, D. cbn [option_map item_at nth_error]. eexists. split; [reflexivity|].
    destruct (dict_get (get_metadata f ++ maps ++ post) (txt "num_subhalo")) as [[]|]; try discriminate.
    destruct (item_at _ 0) as [[]|]; try discriminate. injection U as <-. constructor; [|constructor].
    split; [reflexivity|left; cbn; tauto]. }
  assert (S3 : set_aside sub) by (apply (sub_aside _ _ _ U)). assert (S3' : set_aside sub') by (apply (sub_aside _ _ _ U')).
  assert (B3 : built text_error is_date f (get_metadata f ++ maps ++ post ++ sub)) by (exists maps, post, sub; split; [reflexivity|split; [assumption|split; [assumption|first [assumption|intros ? []]]]]).
  assert (B3' : built text_error is_date f' (get_metadata f' ++ maps ++ post' ++ sub')) by (exists maps, post', sub'; split; [reflexivity|split; [assumption|split; [assumption|first [assumption|intros ? []]]]]).
  assert (F3 : Forall2 alike (get_metadata f ++ maps ++ post ++ sub) (get_metadata f' ++ maps ++ post' ++ sub')).
  { apply Forall2_app; [apply metadata_alike|]. apply Forall2_app; [apply alike_refl|]. apply Forall2_app; assumption. }
  assert (L' : load_groups k f' (get_metadata f' ++ maps ++ post' ++ sub') = Ok gs).
  { unfold load_groups in L |- *. destruct (present_groups k f _) as [pg|] eqn:PG in L; [|discriminate].
    rewrite (present_same _ _ _ B3 B3' PG). cbn [bind] in *. destruct (all_ok (map (group_name k) pg)) as [ns|]; [|discriminate].
    cbn [bind] in *. rewrite (alike_get _ _ F3 (txt "named_columns")).
    2:{ intro I. repeat (destruct I as [I|I]; [vm_compute in I; discriminate|]). destruct I. }
    revert L. generalize (match dict_get (get_metadata f ++ maps ++ post ++ sub) (txt "named_columns") with
                            | Some (VColumns c0) => c0 | _ => [] end). intros cols L.
    apply (all_ok_same _ _ _ _ _ _ L). intros [g n] y I V J. cbn [fst snd] in *.
    destruct (load_group _ f pg cols g n) as [gm|] eqn:LG; [|discriminate]. cbn [bind] in V. injection V as <-.
    destruct (G (n ++ txt "_properties") gm) as (x & x' & D & D' & K).
    { rewrite E. do 4 (apply in_or_app; right). apply in_or_app. left. exact J. }
    unfold load_group in LG |- *.
    assert (GG : gm_group gm = g).
    { destruct (dict_get (mf_groups f) g); [|discriminate]. destruct (all_ok _) in LG; [|discriminate]. injection LG as <-. reflexivity. }
    rewrite GG in D, D'. rewrite D in LG. rewrite D', K.
    destruct (all_ok _) in LG |- *; [|discriminate]. cbn [bind] in *. injection LG as <-.
    destruct k; try reflexivity. congruence. }
  assert (F4 : Forall2 alike (get_metadata f ++ maps ++ post ++ sub ++ gs) (get_metadata f' ++ maps ++ post' ++ sub' ++ gs)).
  { apply Forall2_app; [apply metadata_alike|]. apply Forall2_app; [apply alike_refl|]. apply Forall2_app; [exact Fp|].
    apply Forall2_app; [exact Fs|apply alike_refl]. }
  assert (X' : extract_cosmology cosmology_ok (get_metadata f' ++ maps ++ post' ++ sub' ++ gs) = Ok c).
  { unfold extract_cosmology in *. rewrite (alike_get _ _ F4 (txt "cosmology_raw")); [exact X|].
    intro I. repeat (destruct I as [I|I]; [vm_compute in I; discriminate|]). destruct I. }
  exists (get_metadata f' ++ maps ++ post' ++ sub' ++ gs ++ c). split.
  - apply read_iff. exists maps, post', sub', gs, c. rewrite columns_same. repeat (split; [assumption|]). reflexivity.
  - rewrite E. apply Forall2_app; [apply metadata_alike|]. apply Forall2_app; [apply alike_refl|]. apply Forall2_app; [exact Fp|].
    apply Forall2_app; [exact Fs|apply alike_refl].
Qed.

End Two.

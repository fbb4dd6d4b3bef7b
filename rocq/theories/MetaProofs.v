(** Proofs about the metadata of files. *)
From Coq Require Import String Ascii List Arith ZArith QArith Bool Lia.
From Verif Require Import Base BaseLemmas NamesModel NamesSpec NamesProofs SubsetModel MetaModel MetaSpec.
Import ListNotations.
Open Scope nat_scope.

Lemma dict_get_app : forall A (l1 l2 : list (name * A)) k,
  dict_get (l1 ++ l2) k = match dict_get l2 k with Some v => Some v | None => dict_get l1 k end.
Proof.
  intros A l1 l2 k. induction l1 as [|[k' v] t IH]; cbn [app dict_get].
  - destruct (dict_get l2 k); reflexivity.
  - rewrite IH. destruct (dict_get l2 k); reflexivity.
Qed.

Lemma dict_get_none : forall A (l : list (name * A)) k,
  (forall kv, In kv l -> fst kv <> k) -> dict_get l k = None.
Proof.
  induction l as [|[k' v] t IH]; intros k H; [reflexivity|]. cbn [dict_get].
  rewrite IH by (intros kv I; apply H; right; exact I).
  destruct (name_eqb k' k) eqn:E; [|reflexivity]. apply name_eqb_iff in E.
  exfalso. apply (H (k', v)); [left; reflexivity|exact E].
Qed.

(** * Suffixes *)

Lemma starts_iff' : forall w s, starts_with w s = true <-> exists r, s = w ++ r.
Proof.
  induction w as [|a w IH]; intros s; cbn [starts_with].
  - split; [intros _; exists s; reflexivity|reflexivity].
  - destruct s as [|b s].
    + split; [discriminate|]. intros (r & H). discriminate.
    + rewrite andb_true_iff, IH. split.
      * intros (E & r & ->). apply Ascii.eqb_eq in E. subst. exists r. reflexivity.
      * intros (r & H). injection H as -> ->. split; [apply Ascii.eqb_refl|exists r; reflexivity].
Qed.

Lemma ends_iff : forall w s, ends_with w s = true <-> exists r, s = r ++ w.
Proof.
  intros w s. unfold ends_with. rewrite starts_iff'. split; intros (r & H).
  - exists (rev r). rewrite <- (rev_involutive s), H, rev_app_distr, rev_involutive. reflexivity.
  - exists (rev r). rewrite H, rev_app_distr. reflexivity.
Qed.

Lemma snake_mapping : forall n p, exists q, snake_from p (n ++ txt "Mapping") = q ++ txt "mapping".
Proof.
  induction n as [|c t IH]; intro p.
  - cbn [app]. destruct p as [a|].
    + exists (if (is_lower a || is_digit a) && is_upper "M"%char then [underscore] else []). reflexivity.
    + exists []. reflexivity.
  - destruct (IH (Some c)) as (q & E). cbn [app snake_from]. rewrite E.
    match goal with |- exists q', ?u ++ ?x :: _ = _ => exists (u ++ x :: q) end.
    rewrite <- app_assoc. reflexivity.
Qed.

Lemma snake_ends : forall n, ends_with (txt "Mapping") n = true -> ends_with (txt "mapping") (snake n) = true.
Proof.
  intros n H. apply ends_iff in H. destruct H as (r & ->). rewrite snake_eq.
  destruct (snake_mapping r None) as (q & ->). apply ends_iff. exists q. reflexivity.
Qed.

(** * Concatenations *)

Lemma concat_ok_in : forall A (l : list (res (list A))) r x,
  concat_ok l = Ok r -> In x r -> exists s, In (Ok s) l /\ In x s.
Proof.
  unfold concat_ok. intros A l r x H I. destruct (all_ok l) as [ls|] eqn:E; [|discriminate].
  cbn in H. injection H as <-. apply all_ok_spec in E. apply in_concat in I. destruct I as (s & I & J).
  exists s. split; [|exact J]. rewrite E. apply in_map. exact I.
Qed.

Section WithParams.
Variable text_error : pyerr.
Variable is_date : name -> bool.
Variable cosmology_ok : dict -> res unit.

Lemma mapping_names : forall f cols m kv,
  get_mapping_metadata f cols = Ok m -> In kv m -> ends_with (txt "mapping") (fst kv) = true.
Proof.
  intros f cols m kv H I. unfold get_mapping_metadata in H. destruct (mf_subgrid f) as [l|].
  - destruct (concat_ok_in _ _ _ _ H I) as (s & J & K). apply in_map_iff in J.
    destruct J as (kd & J & L). apply filter_In in L. destruct L as (_ & L).
    unfold mapping_metadata in J. destruct (match_mapping (fst kd)) as [[x y]|].
    + destruct (first_starting _ cols) as [[? ?]|]; [|discriminate].
      destruct (first_starting y cols) as [[? ?]|]; [|discriminate].
      destruct (mapping_values _ _ _); [|discriminate]. cbn in J. injection J as <-.
      destruct K as [<-|[]]. cbn [fst]. apply snake_ends. exact L.
    + injection J as <-. destruct K.
  - injection H as <-. destruct I.
Qed.

Lemma group_names : forall k f log m kv,
  load_groups k f log = Ok m -> In kv m -> ends_with (txt "_properties") (fst kv) = true.
Proof.
  intros k f log m kv H I. unfold load_groups in H.
  destruct (present_groups k f log) as [gs|]; [|discriminate]. cbn [bind] in H.
  destruct (all_ok (map (group_name k) gs)) as [ns|]; [|discriminate]. cbn [bind] in H.
  apply all_ok_spec in H. 
  assert (J : In (Ok kv) (map Ok m)) by (apply in_map; exact I). rewrite <- H in J.
  apply in_map_iff in J. destruct J as (gn & J & _).
  destruct (load_group _ _ _ _ _ _); [|discriminate]. cbn in J. injection J as <-.
  cbn [fst]. apply ends_iff. exists (snd gn). reflexivity.
Qed.

(** The names that are not set from the header. *)
Definition other (n : name) : bool :=
  ends_with (txt "mapping") n || ends_with (txt "_properties") n
  || in_names n (txt "named_columns" :: txt "n_subhalos" :: txt "cosmology" :: map snd metadata_fields_to_read).

Lemma in_names_iff : forall n l, in_names n l = true <-> In n l.
Proof.
  intros n l. unfold in_names. rewrite existsb_exists. split.
  - intros (x & I & E). apply name_eqb_iff in E. subst. exact I.
  - intro I. exists n. split; [exact I|]. apply name_eqb_iff. reflexivity.
Qed.


Lemma suffix_not_raw : forall n w, forallb (fun x => negb (ends_with w x)) (map snd metadata_fields_to_read) = true ->
  ends_with w n = true -> in_names n (map snd metadata_fields_to_read) = false.
Proof.
  intros n w F E. destruct (in_names n (map snd metadata_fields_to_read)) eqn:I; [|reflexivity].
  apply in_names_iff in I. rewrite forallb_forall in F. specialize (F _ I). rewrite E in F. discriminate.
Qed.

Definition set_aside (l : list (name * mval)) : Prop :=
  forall kv, In kv l -> other (fst kv) = true /\ in_names (fst kv) (map snd metadata_fields_to_read) = false.

Lemma aside_mapping : forall n, ends_with (txt "mapping") n = true ->
  other n = true /\ in_names n (map snd metadata_fields_to_read) = false.
Proof.
  intros n H. split; [unfold other; rewrite H; reflexivity|].
  apply (suffix_not_raw n (txt "mapping")); [vm_compute; reflexivity|exact H].
Qed.

Lemma aside_properties : forall n, ends_with (txt "_properties") n = true ->
  other n = true /\ in_names n (map snd metadata_fields_to_read) = false.
Proof.
  intros n H. split; [unfold other; rewrite H, orb_true_r; reflexivity|].
  apply (suffix_not_raw n (txt "_properties")); [vm_compute; reflexivity|exact H].
Qed.

(** The pieces of a metadata object. *)
Definition columns_of (k : file_kind) (f : mfile) : res (list (name * mval)) :=
  match k with
  | KSnapshot | KLineOfSight =>
      let columns := match mf_columns f with Some c => c | None => [] end in
      do m <- get_mapping_metadata f columns; Ok ((txt "named_columns", VColumns columns) :: m)
  | _ => Ok []
  end.

Lemma read_iff : forall k f m,
  read_metadata text_error is_date cosmology_ok k f = Ok m <->
  exists maps post sub groups cosmo,
    columns_of k f = Ok maps
    /\ postprocess_header text_error is_date f (get_metadata f ++ maps) = Ok post
    /\ (match k with KSOAP => unpack_subhalo_number (get_metadata f ++ maps ++ post) | _ => Ok [] end) = Ok sub
    /\ load_groups k f (get_metadata f ++ maps ++ post ++ sub) = Ok groups
    /\ extract_cosmology cosmology_ok (get_metadata f ++ maps ++ post ++ sub ++ groups) = Ok cosmo
    /\ m = get_metadata f ++ maps ++ post ++ sub ++ groups ++ cosmo.
Proof.
  intros k f m. unfold read_metadata.
  assert (E : (match k with
              | KSnapshot | KLineOfSight =>
                  let columns := match mf_columns f with Some c => c | None => [] end in
                  do m <- get_mapping_metadata f columns;
                  Ok (get_metadata f ++ (txt "named_columns", VColumns columns) :: m)
              | _ => Ok (get_metadata f)
              end) = do maps <- columns_of k f; Ok (get_metadata f ++ maps)).
  { unfold columns_of. destruct k; cbv zeta; try (destruct (get_mapping_metadata _ _); reflexivity);
      cbn [bind]; rewrite app_nil_r; reflexivity. }
  cbv zeta in E |- *. rewrite E. clear E.
  destruct (columns_of k f) as [maps|] eqn:C; cbn [bind].
  2:{ split; [discriminate|]. intros (? & ? & ? & ? & ? & X & _). discriminate. }
  destruct (postprocess_header text_error is_date f (get_metadata f ++ maps)) as [post|] eqn:P; cbn [bind].
  2:{ split; [discriminate|]. intros (? & ? & ? & ? & ? & X & Y & _). injection X as <-.
      rewrite P in Y. discriminate. }
  rewrite <- !app_assoc.
  destruct (match k with KSOAP => unpack_subhalo_number (get_metadata f ++ maps ++ post) | _ => Ok [] end)
    as [sub|] eqn:U; cbn [bind].
  2:{ split; [discriminate|]. intros (? & ? & ? & ? & ? & X & Y & Z & _). injection X as <-.
      rewrite P in Y. injection Y as <-. rewrite U in Z. discriminate. }
  rewrite <- !app_assoc.
  destruct (load_groups k f (get_metadata f ++ maps ++ post ++ sub)) as [gs|] eqn:L; cbn [bind].
  2:{ split; [discriminate|]. intros (? & ? & ? & ? & ? & X & Y & Z & W & _). injection X as <-.
      rewrite P in Y. injection Y as <-. rewrite U in Z. injection Z as <-. rewrite L in W. discriminate. }
  rewrite <- !app_assoc.
  destruct (extract_cosmology cosmology_ok (get_metadata f ++ maps ++ post ++ sub ++ gs)) as [c|] eqn:X; cbn [bind].
  - rewrite <- !app_assoc. split.
    + intro H. injection H as <-. exists maps, post, sub, gs, c. auto 10.
    + intros (? & ? & ? & ? & ? & X1 & Y & Z & W & V & ->). injection X1 as <-. rewrite P in Y. injection Y as <-.
      rewrite U in Z. injection Z as <-. rewrite L in W. injection W as <-. rewrite X in V. injection V as <-.
      reflexivity.
  - split; [discriminate|]. intros (? & ? & ? & ? & ? & X1 & Y & Z & W & V & _). injection X1 as <-.
    rewrite P in Y. injection Y as <-. rewrite U in Z. injection Z as <-. rewrite L in W. injection W as <-.
    rewrite X in V. discriminate.
Qed.

Lemma maps_aside : forall k f maps, columns_of k f = Ok maps -> set_aside maps.
Proof.
  intros k f maps H kv I. unfold columns_of in H. destruct k; cbv zeta in H.
  1,2: destruct (get_mapping_metadata _ _) as [mm|] eqn:E; [|discriminate]; cbn [bind] in H;
    injection H as <-; destruct I as [<-|I];
    [split; reflexivity|apply aside_mapping; apply (mapping_names _ _ _ _ E I)].
  all: injection H as <-; destruct I.
Qed.

Lemma sub_aside : forall k log sub,
  (match k with KSOAP => unpack_subhalo_number log | _ => Ok [] end) = Ok sub -> set_aside sub.
Proof.
  intros k log sub H kv I. destruct k.
  1,2,4: injection H as <-; destruct I.
  unfold unpack_subhalo_number in H. destruct (dict_get log _) as [[]|]; try discriminate.
  destruct (item_at _ 0) as [[]|]; try discriminate. injection H as <-. destruct I as [<-|[]]. split; reflexivity.
Qed.

Lemma cosmo_aside : forall log c, extract_cosmology cosmology_ok log = Ok c -> set_aside c.
Proof.
  intros log c H kv I. unfold extract_cosmology in H. cbv zeta in H.
  match type of H with bind ?e _ = _ => destruct e as [[]|]; cbn [bind] in H; [| |discriminate] end.
  - destruct (cosmology_ok _); [|discriminate]. cbn [bind] in H. injection H as <-.
    destruct I as [<-|[]]. split; reflexivity.
  - injection H as <-. destruct I as [<-|[]]. split; reflexivity.
Qed.

Lemma aside_app : forall l1 l2, set_aside l1 -> set_aside l2 -> set_aside (l1 ++ l2).
Proof. intros l1 l2 H1 H2 kv I. apply in_app_or in I. destruct I; auto. Qed.

Lemma read_pieces : forall k f m,
  read_metadata text_error is_date cosmology_ok k f = Ok m ->
  exists maps post rest,
    m = get_metadata f ++ maps ++ post ++ rest
    /\ postprocess_header text_error is_date f (get_metadata f ++ maps) = Ok post
    /\ set_aside maps /\ set_aside rest.
Proof.
  intros k f m H. apply read_iff in H. destruct H as (maps & post & sub & gs & c & C & P & U & L & X & ->).
  exists maps, post, (sub ++ gs ++ c). split; [reflexivity|]. split; [exact P|].
  split; [apply (maps_aside _ _ _ C)|].
  apply aside_app; [apply (sub_aside _ _ _ U)|]. apply aside_app; [|apply (cosmo_aside _ _ X)].
  intros kv I. apply aside_properties. apply (group_names _ _ _ _ _ L I).
Qed.

Lemma aside_none : forall l n, set_aside l ->
  other n = false \/ in_names n (map snd metadata_fields_to_read) = true -> dict_get l n = None.
Proof.
  intros l n H D. apply dict_get_none. intros kv I E. destruct (H kv I) as (A & B). subst n.
  destruct D; congruence.
Qed.

(** * The header *)

Lemma raw_get : forall f maps n, set_aside maps ->
  in_names n (map snd metadata_fields_to_read) = true ->
  dict_get (get_metadata f ++ maps) n = dict_get (get_metadata f) n.
Proof.
  intros f maps n H E. rewrite dict_get_app, (aside_none maps n H (or_intror E)). reflexivity.
Qed.

Definition raw (f : mfile) (group : string) : mval :=
  match dict_get (mf_groups f) (txt group) with Some g => VDict (gi_attrs g) | None => VNone end.

Lemma header_of_log : forall f maps h, set_aside maps -> header_is f h ->
  dict_get (get_metadata f ++ maps) (txt "header") = Some (VDict h).
Proof.
  intros f maps h H (g & G & <-). rewrite raw_get by (auto; reflexivity).
  change (dict_get (get_metadata f) (txt "header")) with (Some (raw f "Header")).
  unfold raw. rewrite G. reflexivity.
Qed.

Definition within (l : list (name * mval)) (names : list string) : Prop :=
  forall kv, In kv l -> In (fst kv) (map txt names).

Lemma within_none : forall l names n, within l names -> in_names n (map txt names) = false ->
  dict_get l n = None.
Proof.
  intros l names n H E. apply dict_get_none. intros kv I F. subst n. specialize (H kv I).
  apply in_names_iff in H. congruence.
Qed.

Lemma concat_ok_cons : forall A (x : res (list A)) l r,
  concat_ok (x :: l) = Ok r <-> exists a b, x = Ok a /\ concat_ok l = Ok b /\ r = a ++ b.
Proof.
  unfold concat_ok. intros A x l r. cbn [all_ok]. destruct x as [a|]; cbn [bind].
  - destruct (all_ok l) as [ls|]; cbn [bind concat].
    + split; [intro H; injection H as <-; eauto|]. intros (a' & b & H & G & ->).
      injection H as <-. injection G as <-. reflexivity.
    + split; [discriminate|]. intros (? & ? & _ & G & _). discriminate.
  - split; [discriminate|]. intros (? & ? & G & _). discriminate.
Qed.

Lemma concat_ok_nil : forall A (r : list A), concat_ok [] = Ok r <-> r = [].
Proof. intros A r. unfold concat_ok. cbn. split; intro H; [injection H as <-; reflexivity|subst; reflexivity]. Qed.

(** One field of the singles: its names and values. *)
Lemma single_spec : forall h fn r,
  unpack_single (Some h) fn = Ok r ->
  match dict_get h (fst fn) with
  | None => r = []
  | Some v => forall nd, In nd (snd fn) -> exists x, item_at v 0 = Some x
  end /\ (forall kv, In kv r -> In (fst kv) (map fst (snd fn))).
Proof.
  intros h fn r H. unfold unpack_single, look in H. cbn [bind] in H.
  destruct (dict_get h (fst fn)) as [v|]; [|injection H as <-; split; [reflexivity|intros kv []]].
  apply all_ok_spec in H. split.
  - intros nd I.
    apply (in_map (fun nd => do v0 <- first_item v;
                             do w <- (match snd nd with Some d => quantity d v0 | None => Ok v0 end);
                             Ok (fst nd, w))) in I. rewrite H in I. apply in_map_iff in I.
    destruct I as (kv & I & _). unfold first_item in I. destruct (item_at v 0) as [x|]; [eauto|discriminate].
  - intros kv I. apply (in_map (@Ok (name * mval))) in I. rewrite <- H in I. apply in_map_iff in I.
    destruct I as (nd & E & J). destruct (first_item v); [|discriminate]. cbn [bind] in E.
    match type of E with bind ?e _ = _ => destruct e; [|discriminate] end. cbn [bind] in E.
    injection E as <-. cbn [fst]. apply in_map. exact J.
Qed.

Definition single_names : list string := ["time"; "t"; "dimension"; "redshift"; "z"; "scale_factor"]%string.
Definition array_names : list string :=
  ["boxsize"; "num_part"; "num_group"; "num_subhalo"; "has_type"; "num_files_per_snapshot"; "output_type";
   "subhalo_types"]%string.

Lemma within_app : forall l1 l2 n, within l1 n -> within l2 n -> within (l1 ++ l2) n.
Proof. intros l1 l2 n H1 H2 kv I. apply in_app_or in I. destruct I; auto. Qed.

Lemma singles_within : forall h r, unpack_singles (Some h) = Ok r -> within r single_names.
Proof. clear text_error is_date cosmology_ok.
  intros h r H kv I. destruct (concat_ok_in _ _ _ _ H I) as (s & J & K). apply in_map_iff in J.
  destruct J as (fn & E & L). destruct (single_spec _ _ _ E) as (_ & N). specialize (N _ K).
  repeat (destruct L as [<-|L]; [cbn in N |- *; intuition|]). destruct L.
Qed.

Lemma array_spec : forall h a fn r, unpack_array text_error (Some h) a fn = Ok r ->
  match dict_get h (fst fn) with
  | None => r = []
  | Some v =>
      if name_eqb (snd fn) (txt "boxsize") then
        exists l s, (v = HArr l /\ s = false \/ exists x, v = HNum x /\ l = [x] /\ s = true)
                    /\ r = [(snd fn, VCosmo l s DLength a one true true)]
      else r = [(snd fn, VHeader v)]
  end.
Proof.
  intros h a fn r H. unfold unpack_array, look in H. cbn [bind] in H.
  destruct (dict_get h (fst fn)) as [v|]; [|injection H as <-; reflexivity].
  destruct (name_eqb (snd fn) (txt "boxsize")).
  - destruct v; try discriminate; injection H as <-.
    + exists l, false. split; [left; auto|reflexivity].
    + exists [x], true. split; [right; eauto|reflexivity].
  - injection H as <-. reflexivity.
Qed.

Lemma array_name : forall h a fn r kv, unpack_array text_error (Some h) a fn = Ok r -> In kv r -> fst kv = snd fn.
Proof.
  intros h a fn r kv H I. apply array_spec in H. destruct (dict_get h (fst fn)) as [v|].
  - destruct (name_eqb (snd fn) (txt "boxsize")).
    + destruct H as (l & s & _ & ->). destruct I as [<-|[]]. reflexivity.
    + subst r. destruct I as [<-|[]]. reflexivity.
  - subst r. destruct I.
Qed.

Lemma arrays_within : forall h a r, unpack_arrays text_error (Some h) a = Ok r -> within r array_names.
Proof. clear cosmology_ok.
  intros h a r H kv I. destruct (concat_ok_in _ _ _ _ H I) as (s & J & K). apply in_map_iff in J.
  destruct J as (fn & E & L). rewrite (array_name _ _ _ _ _ E K).
  repeat (destruct L as [<-|L]; [cbn; intuition|]). destruct L.
Qed.

(** The lookup of one array. *)
Lemma concat_field : forall (unpack : name * name -> res (list (name * mval))) (tab : list (name * name)) r fld nm,
  (forall fn s kv, unpack fn = Ok s -> In kv s -> fst kv = snd fn) ->
  concat_ok (map unpack tab) = Ok r -> NoDup (map snd tab) -> In (fld, nm) tab ->
  exists s, unpack (fld, nm) = Ok s /\ dict_get r nm = dict_get s nm.
Proof.
  intros unpack. induction tab as [|fn tab IH]; intros r fld nm N H D I; [destruct I|].
  cbn [map] in H, D. apply concat_ok_cons in H. destruct H as (a & b & Ha & Hb & ->).
  inversion D as [|? ? D1 D2]; subst. rewrite dict_get_app. destruct I as [->|I].
  - exists a. split; [exact Ha|]. 
    assert (E : dict_get b nm = None).
    { apply dict_get_none. intros kv J F. destruct (concat_ok_in _ _ _ _ Hb J) as (s & K & L).
      apply in_map_iff in K. destruct K as (fn & K & M). rewrite (N _ _ _ K L) in F.
      apply D1. cbn [snd]. rewrite <- F. apply in_map. exact M. }
    rewrite E. reflexivity.
  - destruct (IH _ _ _ N Hb D2 I) as (s & Hs & E). exists s. split; [exact Hs|]. rewrite E.
    destruct (dict_get s nm); [reflexivity|]. apply dict_get_none. intros kv J F.
    rewrite (N _ _ _ Ha J) in F. apply D1. rewrite F. apply (in_map snd) in I. exact I.
Qed.

Lemma get_metadata_within : forall f, within (get_metadata f)
  ["code"; "cosmology_raw"; "header"; "gravity_scheme"; "hydro_scheme"; "internal_code_units"; "parameters";
   "policy"; "runtime_pars"; "subgrid_scheme"; "stars_scheme"; "unused_parameters"]%string.
Proof. clear text_error is_date cosmology_ok.
  intros f kv I. apply in_map_iff in I. destruct I as (fn & <- & I). cbn [fst].
  repeat (destruct I as [<-|I]; [cbn; intuition|]). destruct I.
Qed.

Definition radiation (f : mfile) : list (name * mval) :=
  [ (txt "photon_group_edges", match mf_edges f with Some l => VEdges l | None => VNone end);
    (txt "reduced_lightspeed", match mf_speed f with Some x => VSpeed x | None => VNone end) ].

Definition number_log (v : hval) : list (name * mval) :=
  map (fun ip => (txt "n_" ++ snd (snd ip), match item_at v (fst ip) with Some w => w | None => VNum zero end))
      (combine (seq 0 (length particle_name_underscores)) particle_name_underscores).

Lemma scale_cases : forall log, exists v, scale_factor_of log = (v, snd (scale_factor_of log))
  /\ dict_get (snd (scale_factor_of log)) (txt "a") = Some v
  /\ within (snd (scale_factor_of log)) ["a"; "scale_factor"]%string.
Proof.
  intro log. unfold scale_factor_of. destruct (dict_get log (txt "scale_factor")) as [v|].
  - exists v. cbn [snd]. split; [reflexivity|]. split; [reflexivity|].
    intros kv [<-|[]]. left. reflexivity.
  - exists (VNum one). cbn [snd]. split; [reflexivity|]. split; [reflexivity|].
    intros kv [<-|[<-|[]]]; [left|right; left]; reflexivity.
Qed.

Definition the_scale (singles : list (name * mval)) : mval :=
  match dict_get singles (txt "scale_factor") with Some v => v | None => VNum one end.
Definition scale_log (singles : list (name * mval)) : list (name * mval) :=
  match dict_get singles (txt "scale_factor") with
  | Some v => [(txt "a", v)]
  | None => [(txt "a", VNum one); (txt "scale_factor", VNum one)]
  end.

Lemma scale_log_within : forall s, within (scale_log s) ["a"; "scale_factor"]%string.
Proof. clear text_error is_date cosmology_ok.
  intros s kv I. unfold scale_log in I. destruct (dict_get s _); cbn in I; intuition; subst; cbn; auto.
Qed.

Lemma log_none : forall f maps n, set_aside maps -> other n = false ->
  dict_get (get_metadata f ++ maps) n = None.
Proof.
  intros f maps n M O. rewrite dict_get_app, (aside_none _ _ M (or_introl O)).
  apply (within_none _ _ _ (get_metadata_within f)).
  destruct (in_names n _) eqn:E; [|reflexivity]. exfalso. unfold other in O.
  apply orb_false_iff in O. destruct O as (_ & O).
  match type of O with in_names _ ?l = false => assert (I : In n l) end.
  { apply in_names_iff in E. right. right. right. exact E. }
  apply in_names_iff in I. congruence.
Qed.

Definition date_log (h : dict) : res (list (name * mval)) := unpack_date is_date (Some h).

Lemma post_iff : forall f maps h post, set_aside maps -> header_is f h ->
  (postprocess_header text_error is_date f (get_metadata f ++ maps) = Ok post <->
   exists singles arrays tables strings date v,
     unpack_singles (Some h) = Ok singles
     /\ unpack_arrays text_error (Some h) (the_scale singles) = Ok arrays
     /\ concat_ok (map (unpack_mass_table (Some h)) header_unpack_mass_tables) = Ok tables
     /\ concat_ok (map (unpack_string (Some h)) header_unpack_string) = Ok strings
     /\ unpack_date is_date (Some h) = Ok date
     /\ dict_get arrays (txt "num_part") = Some (VHeader v)
     /\ post = singles ++ scale_log singles ++ arrays ++ tables ++ strings ++ date ++ radiation f
               ++ number_log v
               ++ [(txt "gas_gamma", gas_gamma (Some (raw f "HydroScheme")))]).
Proof.
  intros f maps h post M H. unfold postprocess_header. rewrite (header_of_log _ _ _ M H). cbv zeta.
  destruct (unpack_singles (Some h)) as [singles|] eqn:S1; cbn [bind].
  2:{ split; [discriminate|]. intros (? & ? & ? & ? & ? & ? & X & _). discriminate. }
  assert (E : scale_factor_of ((get_metadata f ++ maps) ++ singles) = (the_scale singles, scale_log singles)).
  { unfold scale_factor_of, the_scale, scale_log. rewrite dict_get_app.
    destruct (dict_get singles (txt "scale_factor")); [reflexivity|].
    rewrite (log_none _ _ _ M) by reflexivity. reflexivity. }
  rewrite E. clear E.
  destruct (unpack_arrays text_error (Some h) (the_scale singles)) as [arrays|] eqn:S2; cbn [bind].
  2:{ split; [discriminate|]. intros (? & ? & ? & ? & ? & ? & X & Y & _). injection X as <-. congruence. }
  destruct (concat_ok (map (unpack_mass_table (Some h)) header_unpack_mass_tables)) as [tables|] eqn:S3; cbn [bind].
  2:{ split; [discriminate|]. intros (? & ? & ? & ? & ? & ? & _ & _ & X & _). discriminate. }
  destruct (concat_ok (map (unpack_string (Some h)) header_unpack_string)) as [strings|] eqn:S4; cbn [bind].
  2:{ split; [discriminate|]. intros (? & ? & ? & ? & ? & ? & _ & _ & _ & X & _). discriminate. }
  destruct (unpack_date is_date (Some h)) as [date|] eqn:S5; cbn [bind].
  2:{ split; [discriminate|]. intros (? & ? & ? & ? & ? & ? & _ & _ & _ & _ & X & _). discriminate. }
  assert (N : dict_get ((get_metadata f ++ maps) ++ singles ++ scale_log singles ++ arrays) (txt "num_part")
              = dict_get arrays (txt "num_part")).
  { rewrite !(dict_get_app _ _ _ (txt "num_part")).
    rewrite (within_none _ _ _ (scale_log_within singles)) by reflexivity.
    rewrite (within_none _ _ _ (singles_within _ _ S1)) by reflexivity.
    rewrite <- dict_get_app, (log_none _ _ _ M) by reflexivity.
    destruct (dict_get arrays (txt "num_part")); reflexivity. }
  assert (G : dict_get (get_metadata f ++ maps) (txt "hydro_scheme") = Some (raw f "HydroScheme")).
  { rewrite raw_get by (auto; reflexivity). reflexivity. }
  unfold unpack_numbers. rewrite N, G.
  destruct (dict_get arrays (txt "num_part")) as [[]|] eqn:A; cbn [bind].
  all: try (split; [discriminate|]; intros (? & ? & ? & ? & ? & ? & X & Y & _ & _ & _ & Z & _);
            injection X as <-; rewrite S2 in Y; injection Y as <-; congruence).
  split.
  - intro X. injection X as <-. exists singles, arrays, tables, strings, date, h0. auto 12.
  - intros (? & ? & ? & ? & ? & ? & X1 & X2 & X3 & X4 & X5 & X6 & ->). injection X1 as <-.
    rewrite S2 in X2. injection X2 as <-. injection X3 as <-. injection X4 as <-. injection X5 as <-.
    rewrite A in X6. injection X6 as <-. reflexivity.
Qed.

Lemma tables_within : forall h r, concat_ok (map (unpack_mass_table (Some h)) header_unpack_mass_tables) = Ok r ->
  within r ["mass_table"; "initial_mass_table"]%string.
Proof. clear text_error is_date cosmology_ok.
  intros h r H kv I. destruct (concat_ok_in _ _ _ _ H I) as (s & J & K). apply in_map_iff in J.
  destruct J as (fn & E & L). unfold unpack_mass_table, look in E. cbn [bind] in E.
  destruct (mass_table _); [|discriminate]. cbn [bind] in E. injection E as <-. destruct K as [<-|[]].
  repeat (destruct L as [<-|L]; [cbn; intuition|]). destruct L.
Qed.

Lemma strings_within : forall h r, concat_ok (map (unpack_string (Some h)) header_unpack_string) = Ok r ->
  within r ["run_name"; "select_output"; "output_type"; "system_name"]%string.
Proof. clear text_error is_date cosmology_ok.
  intros h r H kv I. destruct (concat_ok_in _ _ _ _ H I) as (s & J & K). apply in_map_iff in J.
  destruct J as (fn & E & L). unfold unpack_string, look in E. cbn [bind] in E. injection E as <-.
  destruct K as [<-|[]]. repeat (destruct L as [<-|L]; [cbn; intuition|]). destruct L.
Qed.

Lemma date_within : forall h r, unpack_date is_date (Some h) = Ok r -> within r ["snapshot_date"]%string.
Proof.
  intros h r H kv I. unfold unpack_date, look in H. cbn [bind] in H.
  match type of H with match ?e with _ => _ end = _ => destruct e; try discriminate end.
  injection H as <-. destruct I as [<-|[]]. left. reflexivity.
Qed.

Lemma numbers_within : forall v, within (number_log v)
  ["n_gas"; "n_dark_matter"; "n_boundary"; "n_sinks"; "n_stars"; "n_black_holes"; "n_neutrinos"; "n_sidm"]%string.
Proof. clear text_error is_date cosmology_ok.
  intros v kv I. unfold number_log in I. cbn in I.
  repeat (destruct I as [<-|I]; [cbn; intuition|]). destruct I.
Qed.
End WithParams.

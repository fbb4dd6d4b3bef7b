(** C110: what the metadata objects see of a file that is given as a tree.  Stated on the tree alone. *)
From Coq Require Import String Ascii List Arith Lia QArith ZArith Bool Sorted Permutation.
From Verif Require Import Base BaseLemmas RangesModel ReaderModel SubsetModel NamesModel NamesProofs MetaModel MetaSpec MetaProofs
  MetaGroupProofs TreeModel TreeSpec TreeProofs TreeTheorems ReopenModel ReopenSpec ReopenProofs ReopenTheorems.
Import ListNotations.
Open Scope list_scope.

Lemma path_name_joined : forall p, path_name p = txt (String.concat "/" p).
Proof.
  induction p as [|k [|k' p] IH]; [reflexivity|reflexivity|]. change (path_name (k :: k' :: p)) with (txt k ++ slash :: path_name (k' :: p)).
  change (String.concat "/" (k :: k' :: p)) with (k ++ "/" ++ String.concat "/" (k' :: p))%string.
  rewrite !txt_app, IH. reflexivity.
Qed.

Section Seen.
Context {V : Type}.
Variable raw : Z -> hval.
Variable texts : field V -> list name.
Variable matrix : field V -> list (list Q).
Variable numbers : field V -> list Q.
Variable first_number : field V -> Q.
Variable t : tree V.
Hypothesis names : uniquely_named (NGroup [] t).
Hypothesis proper : proper_names (objects_of t).
Let root := NGroup [] t.
Let seen := view raw texts matrix numbers first_number (objects_of t).

Lemma at_stored : forall p n, p <> [] -> stored root p n -> at_path (objects_of t) p = Some (entry_of_node n).
Proof. intros p n N S. apply at_objects; [exact names|]. eauto. Qed.

Lemma stored_member : forall p a ks k, stored root p (NGroup a ks) ->
  ((exists e, at_path (objects_of t) (p ++ [k]) = Some e) <-> In k (map fst ks)).
Proof.
  intros p a ks k S. split.
  - intros (e & A). apply at_objects in A; [|exact names]. destruct A as (_ & n & T & _).
    destruct (stored_split _ _ _ _ T) as (x & X & Y). rewrite <- (stored_unique _ _ _ S names _ X) in Y.
    inversion Y as [|? ? ? m ? ? I Z]; subst. apply (in_map fst) in I. exact I.
  - intro I. apply in_map_iff in I. destruct I as ([k' m] & K & I). cbn in K. subst k'. exists (entry_of_node m).
    apply at_stored; [destruct p; discriminate|]. eapply stored_stored; [exact S|]. econstructor; [exact I|constructor].
Qed.

Lemma members_seen : forall p a ks, stored root p (NGroup a ks) ->
  forall k, In k (below (objects_of t) p) <-> exists key, In key (map fst ks) /\ k = txt key.
Proof.
  intros p a ks S k. rewrite below_in. split.
  - intros (key & e & -> & A). exists key. split; [apply (stored_member _ _ _ key S); eauto|reflexivity].
  - intros (key & I & ->). apply (stored_member _ _ _ key S) in I. destruct I as (e & A). eauto.
Qed.

Lemma members_ordered : forall p, StronglySorted text_le (below (objects_of t) p) /\ NoDup (below (objects_of t) p).
Proof.
  intro p. unfold below. destruct (sorted_spec (nodup name_dec (flat_map (fun qe : path * entry V =>
     match rest_of p (fst qe) with Some [k] => [txt k] | _ => [] end) (objects_of t)))) as (A & B).
  split; [exact A|]. eapply Permutation_NoDup; [apply Permutation_sym; exact B|]. apply NoDup_nodup.
Qed.

(** A group is seen under its joined path, with its own attributes, and with its members in order. *)
Theorem C110_group_seen : forall p a ks, p <> [] -> stored root p (NGroup a ks) ->
  exists g, dict_get (mf_groups seen) (txt (String.concat "/" p)) = Some g
  /\ gi_attrs g = map (fun kv => (txt (fst kv), match snd kv with AText s => HStr (txt s)
                                                  | AInts l => HArr (map inject_Z l) | ARaw z => raw z end)) a
  /\ StronglySorted text_le (gi_keys g) /\ NoDup (gi_keys g)
  /\ forall k, In k (gi_keys g) <-> exists key, In key (map fst ks) /\ k = txt key.
Proof.
  intros p a ks N S. pose proof (at_stored p _ N S) as A.
  assert (Sl : slash_free p). { apply at_path_in in A. apply proper in A. tauto. }
  rewrite <- path_name_joined. cbn [seen view mf_groups]. rewrite (groups_get raw (objects_of t) p proper N Sl).
  unfold group_at. rewrite A. cbn [entry_of_node]. eexists. split; [reflexivity|]. cbn [gi_attrs gi_keys].
  split; [reflexivity|]. destruct (members_ordered p) as (B & C). split; [exact B|]. split; [exact C|]. apply (members_seen p a ks S).
Qed.

(** Nothing else is seen as a group. *)
Theorem C110_other_seen : forall p, p <> [] -> slash_free p -> (forall a ks, ~ stored root p (NGroup a ks)) ->
  dict_get (mf_groups seen) (txt (String.concat "/" p)) = None.
Proof.
  intros p N Sl H. rewrite <- path_name_joined. cbn [seen view mf_groups]. rewrite (groups_get raw (objects_of t) p proper N Sl).
  unfold group_at. destruct (at_path (objects_of t) p) as [e|] eqn:A; [|reflexivity].
  apply at_objects in A; [|exact names]. destruct A as (_ & n & S & ->). destruct n; try reflexivity. destruct (H _ _ S).
Qed.

Theorem C110_top_seen : StronglySorted text_le (mf_keys seen) /\ NoDup (mf_keys seen)
  /\ forall k, In k (mf_keys seen) <-> exists key, In key (map fst t) /\ k = txt key.
Proof.
  cbn [seen view mf_keys]. destruct (members_ordered []) as (B & C). split; [exact B|]. split; [exact C|].
  apply (members_seen [] [] t). constructor.
Qed.

Lemma data_seen : forall p d, p <> [] ->
  (data_at (objects_of t) p = Some d <-> exists b, stored root p (NData d b)).
Proof.
  intros p d N. unfold data_at. split.
  - destruct (at_path (objects_of t) p) as [e|] eqn:A; [|discriminate]. apply at_objects in A; [|exact names].
    destruct A as (_ & n & S & ->). destruct n; cbn [entry_of_node]; try discriminate. intro E. injection E as ->. eauto.
  - intros (b & S). rewrite (at_stored _ _ N S). reflexivity.
Qed.

Lemma datasets_seen : forall A (f : field V -> A) p, p <> [] ->
  ((forall a ks, ~ stored root p (NGroup a ks)) -> datasets_of f (objects_of t) p = None)
  /\ (forall a ks, stored root p (NGroup a ks) -> exists l, datasets_of f (objects_of t) p = Some l
      /\ StronglySorted text_le (map fst l) /\ NoDup (map fst l)
      /\ forall k x, In (k, x) l <-> exists key d b, k = txt key /\ In (key, NData d b) ks /\ x = f d).
Proof.
  intros A f p N. split.
  - intro H. unfold datasets_of. destruct (at_path (objects_of t) p) as [e|] eqn:E; [|reflexivity].
    apply at_objects in E; [|exact names]. destruct E as (_ & n & S & ->). destruct n; try reflexivity. destruct (H _ _ S).
  - intros a ks S. unfold datasets_of. rewrite (at_stored _ _ N S). cbn [entry_of_node]. eexists. split; [reflexivity|].
    assert (M : forall k d, data_at (objects_of t) (p ++ [string_of_list_ascii k]) = Some d <->
                exists b, In (string_of_list_ascii k, NData d b) ks).
    { intros k d. rewrite data_seen by (destruct p; discriminate). split; intros (b & T); exists b.
      - destruct (stored_split _ _ _ _ T) as (x & X & Y). rewrite <- (stored_unique _ _ _ S names _ X) in Y.
        inversion Y as [|? ? ? m ? ? I Z]; subst. inversion Z; subst. exact I.
      - eapply stored_stored; [exact S|]. econstructor; [exact T|constructor]. }
    destruct (members_ordered p) as (B & C).
    assert (Sub : forall l, StronglySorted text_le l -> NoDup l ->
      let r := flat_map (fun k => match data_at (objects_of t) (p ++ [string_of_list_ascii k]) with
                               | Some d => [(k, f d)] | None => [] end) l in
      StronglySorted text_le (map fst r) /\ NoDup (map fst r) /\ forall k, In k (map fst r) -> In k l).
    { induction l as [|k l IH]; intros So Nd r; [cbn; repeat split; try constructor; easy|].
      inversion So as [|? ? So' F]; subst. inversion Nd as [|? ? Nk Nd']; subst.
      destruct (IH So' Nd') as (I1 & I2 & I3). unfold r. cbn [flat_map].
      destruct (data_at (objects_of t) (p ++ [string_of_list_ascii k])) as [d|]; cbn [app map fst].
      - split; [|split].
        + constructor; [exact I1|]. apply Forall_forall. intros x J. apply I3 in J. rewrite Forall_forall in F. apply F. exact J.
        + constructor; [|exact I2]. intro J. apply Nk. apply I3. exact J.
        + intros x [<-|J]; [left; reflexivity|right; apply I3; exact J].
      - split; [exact I1|]. split; [exact I2|]. intros x J. right. apply I3. exact J. }
    destruct (Sub _ B C) as (S1 & S2 & _). split; [exact S1|]. split; [exact S2|].
    intros k x. rewrite in_flat_map. split.
    + intros (k' & I & J). destruct (data_at (objects_of t) (p ++ [string_of_list_ascii k'])) as [d|] eqn:E; [|destruct J].
      destruct J as [J|[]]. injection J as -> <-. apply M in E. destruct E as (b & E).
      exists (string_of_list_ascii k), d, b. unfold txt. rewrite list_ascii_of_string_of_list_ascii. auto.
    + intros (key & d & b & -> & I & ->). exists (txt key). split.
      * apply (members_seen p a ks S). exists key. split; [apply (in_map fst) in I; exact I|reflexivity].
      * assert (E : data_at (objects_of t) (p ++ [string_of_list_ascii (txt key)]) = Some d).
        { apply M. exists b. unfold txt. rewrite string_of_list_ascii_of_string. exact I. }
        rewrite E. left. reflexivity.
Qed.

(** The named columns are the texts of the datasets in SubgridScheme/NamedColumns. *)
Theorem C110_columns_seen :
  ((forall a ks, ~ stored root ["SubgridScheme"; "NamedColumns"]%string (NGroup a ks)) -> mf_columns seen = None)
  /\ (forall a ks, stored root ["SubgridScheme"; "NamedColumns"]%string (NGroup a ks) -> exists l, mf_columns seen = Some l
      /\ StronglySorted text_le (map fst l) /\ NoDup (map fst l)
      /\ forall k x, In (k, x) l <-> exists key d b, k = txt key /\ In (key, NData d b) ks /\ x = texts d).
Proof. apply datasets_seen. discriminate. Qed.

(** The tables are those of the datasets in SubgridScheme. *)
Theorem C110_tables_seen :
  ((forall a ks, ~ stored root ["SubgridScheme"]%string (NGroup a ks)) -> mf_subgrid seen = None)
  /\ (forall a ks, stored root ["SubgridScheme"]%string (NGroup a ks) -> exists l, mf_subgrid seen = Some l
      /\ StronglySorted text_le (map fst l) /\ NoDup (map fst l)
      /\ forall k x, In (k, x) l <-> exists key d b, k = txt key /\ In (key, NData d b) ks /\ x = matrix d).
Proof. apply datasets_seen. discriminate. Qed.

(** The photon groups and the speed of light. *)
Theorem C110_light_seen :
  (forall x, mf_edges seen = Some x <->
     exists d b, stored root ["SubgridScheme"; "PhotonGroupEdges"]%string (NData d b) /\ x = numbers d)
  /\ (forall x, mf_speed seen = Some x <->
     exists d b, stored root ["SubgridScheme"; "ReducedLightspeed"]%string (NData d b) /\ x = first_number d).
Proof.
  assert (G : forall A (f : field V -> A) p x, p <> [] -> (option_map f (data_at (objects_of t) p) = Some x <->
            exists d b, stored root p (NData d b) /\ x = f d)).
  { intros A f p x N. split.
    - destruct (data_at (objects_of t) p) as [d|] eqn:E; [|discriminate]. intro H. injection H as <-.
      apply data_seen in E; [|exact N]. destruct E as (b & E). eauto.
    - intros (d & b & S & ->). rewrite (proj2 (data_seen p d N)) by eauto. reflexivity. }
  split; intro x; apply G; discriminate.
Qed.

End Seen.

(** A tree with all of these. *)
Section Example.
Open Scope string_scope.
Let num (z : Z) : field Z := mk_field Contiguous false 1 [[z]].
Definition seen_tree : tree Z :=
  [("SubgridScheme", NGroup [("Name", AText "X")]
      [("ReducedLightspeed", NData (num 7) []); ("PhotonGroupEdges", NData (num 5) []);
       ("NamedColumns", NGroup [] [("Metals", NData (num 3) []); ("Alias", NLink "Metals" (Some (NData (num 3) [])))])]);
   ("Header", NGroup [("NumPart_ThisFile", AInts [1]%Z)] [])].
Definition seen_view : mfile :=
  view (fun z => HNum (inject_Z z)) (fun _ => [txt "H"; txt "He"]) (fun _ => [[1%Q]]) (fun f => map inject_Z (concat (fd_rows f)))
       (fun f => match fd_rows f with [z] :: _ => inject_Z z | _ => 0%Q end) (objects_of seen_tree).
Example seen_tree_names : uniquely_named (NGroup [] seen_tree).
Proof.
  unfold seen_tree, num. uniq.
Qed.
Example seen_tree_proper : proper_names (objects_of seen_tree).
Proof. apply proper_checked. reflexivity. Qed.
Example seen_tree_view :
  mf_keys seen_view = map txt ["Header"; "SubgridScheme"]
  /\ mf_columns seen_view = Some [(txt "Metals", [txt "H"; txt "He"])]
  /\ mf_edges seen_view = Some [5%Q] /\ mf_speed seen_view = Some 7%Q
  /\ dict_get (mf_groups seen_view) (txt "SubgridScheme/NamedColumns") = Some (mk_ginfo [] [txt "Alias"; txt "Metals"])
  /\ dict_get (mf_groups seen_view) (txt "Header") = Some (mk_ginfo [(txt "NumPart_ThisFile", HArr [1%Q])] []).
Proof. repeat split; vm_compute; reflexivity. Qed.
End Example.

Print Assumptions C110_group_seen.
Print Assumptions C110_other_seen.
Print Assumptions C110_top_seen.
Print Assumptions C110_columns_seen.
Print Assumptions C110_tables_seen.
Print Assumptions C110_light_seen.

(** The files of the subset writer, opened again. *)
From Coq Require Import String Ascii List Arith Lia QArith ZArith Bool.
From Verif Require Import Base BaseLemmas RangesModel ReaderModel SubsetModel NamesModel NamesProofs MetaModel MetaSpec MetaProofs
  MetaHeaderProofs MetaGroupProofs TreeModel TreeSpec TreeProofs TreeSuccessProofs TreeWriteProofs TreeTheorems
  ReopenModel ReopenSpec ReopenMetaProofs ReopenProofs.
Import ListNotations.
Open Scope list_scope.

Lemma subset_kept : forall m hc ot key v v', subset_value m hc ot key v v' -> ~ In key rewritten -> v' = v.
Proof.
  intros m hc ot key v v' [(-> & _)|[(-> & _)|[(-> & _)|(_ & _ & _ & E)]]] N; try exact E; destruct N; cbn; tauto.
Qed.

Section Written.
Context {V : Type}.
Variable raw : Z -> hval.
Variable texts : field V -> list name.
Variable matrix : field V -> list (list Q).
Variable numbers : field V -> list Q.
Variable first_number : field V -> Q.
Variable argsort : list Z -> list nat.
Variables (m : tmask) (t : tree V) (o : out V) (a : attrs).
Hypothesis written : write_tree argsort m t = Ok o.
Hypothesis W : well_formed m t a.
Hypothesis Pt : proper_names (objects_of t).
Hypothesis Po : proper_names o.

Let U : uniquely_named (NGroup [] t) := wf_names _ _ _ W.
Let view := view raw texts matrix numbers first_number.

Lemma top_nodup : NoDup (map fst t).
Proof. inversion U; assumption. Qed.

Lemma create_all_above : forall l (o1 o2 : out V), create_all o1 l = Ok o2 ->
  forall p e q, In (p, e) l -> is_above q p -> exists b, at_path o2 q = Some (EGroup b).
Proof.
  clear. induction l as [|[p0 e0] l IH]; intros o1 o2 C p e q I A; [destruct I|]. cbn [create_all] in C.
  destruct (create o1 p0 e0) as [o'|] eqn:E; cbn [bind] in C; [|discriminate].
  destruct I as [X|I]; [|apply (IH _ _ C p e q I A)]. injection X as -> ->.
  destruct (create_spec _ _ _ _ E) as (_ & B & S). destruct (create_all_spec _ _ _ C) as (K & _).
  destruct (B q A) as [N|(b & G)].
  - exists []. apply K. rewrite S, N. destruct (in_dec path_eq_dec q (above p)) as [_|X]; [reflexivity|].
    destruct X. apply in_above. exact A.
  - exists b. apply K. rewrite S, G. reflexivity.
Qed.

(** Everything outside of Cells stems from the input. *)
Lemma from_input : forall k q e, at_path o (k :: q) = Some e -> k <> "Cells"%string ->
  (exists n, stored (NGroup [] t) (k :: q) n) \/ exists r d b, leads (NGroup [] t) ((k :: q) ++ r) (NData d b).
Proof.
  intros k q e H N. destruct (write_tree_phases _ _ _ _ written) as (ce & me & de & le & o1 & o2 & o3 & P).
  assert (M : forall p x, In (p, x) me -> exists n, stored (NGroup [] t) p n).
  { intros p x I. apply (metadata_in _ _ _ (ph_me _ _ _ _ _ _ _ _ _ _ _ P)) in I
      as (k' & n & I & _ & [(_ & -> & _)|(_ & q' & n' & -> & S & _)]); eexists; econstructor; eauto; constructor. }
  assert (D : forall p x, In (p, x) de -> exists d b, leads (NGroup [] t) p (NData d b)).
  { intros p x I. destruct (ph_de _ _ _ _ _ _ _ _ _ _ _ P) as (ds & Hds & Hde).
    apply (data_in _ _ _ _ _ Hds Hde) in I as (d & b & d2 & mk & L & _). eauto. }
  destruct (ph_from P _ _ H) as [K|[K|[K|[K|(_ & p & x & K & A)]]]].
  - apply (cells_under _ _ _ (ph_ce _ _ _ _ _ _ _ _ _ _ _ P)) in K as [q' K]. injection K as K _. contradiction.
  - left. eauto.
  - right. destruct (D _ _ K) as (d & b & L). exists [], d, b. rewrite app_nil_r. exact L.
  - left. rewrite (ph_le _ _ _ _ _ _ _ _ _ _ _ P) in K. apply link_entries_in in K as (k' & tg & (dest & I) & E & _).
    rewrite E. eexists. econstructor; [exact I|constructor].
  - destruct A as (_ & r & _ & E). subst p. destruct K as [K|[K|K]].
    + apply (cells_under _ _ _ (ph_ce _ _ _ _ _ _ _ _ _ _ _ P)) in K as [q' K]. injection K as K _. contradiction.
    + left. destruct (M _ _ K) as (n & S). apply stored_split in S. destruct S as (y & S & _). eauto.
    + right. destruct (D _ _ K) as (d & b & L). eauto.
Qed.

Lemma head_in : forall k q, (exists n, stored (NGroup [] t) (k :: q) n) \/ (exists r d b, leads (NGroup [] t) ((k :: q) ++ r) (NData d b)) ->
  exists n, In (k, n) t.
Proof.
  intros k q [(n & S)|(r & d & b & L)].
  - inversion S; subst. eauto.
  - cbn [app] in L. apply leads_group_inv in L. destruct L as [(E & _)|(k' & m' & r' & I & E & _)]; [discriminate|].
    injection E as -> _. eauto.
Qed.

Lemma occurs_self : forall s, s <> EmptyString -> occurs s s.
Proof. intros s N. split; [exact N|]. exists EmptyString, EmptyString. cbn. clear. induction s; [reflexivity|]. cbn. congruence. Qed.

Lemma plain_not_cells : forall k, plain_name t m k -> k <> "Cells"%string.
Proof. intros k (_ & N & _) ->. apply N. apply occurs_self. discriminate. Qed.

(** Groups that are copied whole. *)
Lemma same_at : forall k, plain_name t m k -> ~ is_header k -> forall q, at_path o (k :: q) = at_path (objects_of t) (k :: q).
Proof.
  intros k Pl H q. destruct (in_dec string_dec k (map fst t)) as [I|I].
  - apply in_map_iff in I. destruct I as ((k' & n) & E & I). cbn in E. subst k'.
    pose proof (C73_metadata argsort m t o written top_nodup k n I Pl H q) as C.
    assert (E : forall e, at_path o (k :: q) = Some e <-> at_path (objects_of t) (k :: q) = Some e).
    { intro e. rewrite C, (at_objects t (k :: q) e U). split.
      - intros (n' & S & ->). split; [discriminate|]. exists n'. split; [econstructor; eassumption|reflexivity].
      - intros (_ & n' & S & ->). exists n'. split; [|reflexivity].
        inversion S as [|a0 ks0 k0 m0 p0 n0 I0 S0]; subst. apply (assoc_unique _ _ _ top_nodup) in I. apply (assoc_unique _ _ _ top_nodup) in I0.
        rewrite I in I0. injection I0 as <-. exact S0. }
    destruct (at_path o (k :: q)) as [e|] eqn:A; [symmetry; apply E; reflexivity|].
    destruct (at_path (objects_of t) (k :: q)) as [e|] eqn:B; [|reflexivity]. exfalso. pose proof (proj2 (E e) eq_refl). discriminate.
  - assert (G : forall n, ~ In (k, n) t) by (intros n J; apply I; apply (in_map fst) in J; exact J).
    destruct (at_path o (k :: q)) as [e|] eqn:A.
    + exfalso. destruct (head_in k q (from_input _ _ _ A (plain_not_cells _ Pl))) as (n & J). apply (G n J).
    + destruct (at_path (objects_of t) (k :: q)) as [e|] eqn:B; [|reflexivity]. exfalso.
      apply (at_objects t _ _ U) in B. destruct B as (_ & n & S & _). destruct (head_in k q) as (n' & J); [left; eauto|]. apply (G n' J).
Qed.

Lemma same_below : forall k, plain_name t m k -> ~ is_header k -> forall q, below o (k :: q) = below (objects_of t) (k :: q).
Proof. intros k Pl H q. apply below_same. intro key. cbn [app]. rewrite (same_at k Pl H). reflexivity. Qed.

Lemma same_group : forall k, plain_name t m k -> ~ is_header k -> forall q,
  group_at raw o (k :: q) = group_at raw (objects_of t) (k :: q).
Proof. intros k Pl H q. unfold group_at. rewrite (same_at k Pl H), (same_below k Pl H). reflexivity. Qed.

Lemma same_data : forall k, plain_name t m k -> ~ is_header k -> forall q, data_at o (k :: q) = data_at (objects_of t) (k :: q).
Proof. intros k Pl H q. unfold data_at. rewrite (same_at k Pl H). reflexivity. Qed.

Lemma same_datasets : forall A (f : field V -> A) k, plain_name t m k -> ~ is_header k -> forall q,
  datasets_of f o (k :: q) = datasets_of f (objects_of t) (k :: q).
Proof.
  intros A f k Pl H q. unfold datasets_of. rewrite (same_at k Pl H), (same_below k Pl H).
  destruct (at_path (objects_of t) (k :: q)) as [[]|]; try reflexivity. f_equal.
  apply flat_map_ext. intro x. cbn [app]. rewrite (same_data k Pl H). reflexivity.
Qed.

(** Header and Parameters. *)
Lemma header_at : forall k n, In (k, n) t -> is_header k -> plain_name t m k ->
  exists b, at_path o [k] = Some (EGroup b) /\
    Forall2 (fun kv kv' => fst kv' = fst kv /\
               subset_value m (header_count t) (output_type_of (node_attrs n)) (fst kv) (snd kv) (snd kv')) (node_attrs n) b.
Proof. intros k n I H P. exact (C73_header argsort m t o written k n I H P). Qed.

Lemma forall2_same : forall hc ot (b b' : attrs),
  Forall2 (fun kv kv' => fst kv' = fst kv /\ subset_value m hc ot (fst kv) (snd kv) (snd kv')) b b' ->
  (forall key, In key rewritten -> ~ In key (map fst b)) -> b' = b.
Proof.
  intros hc ot b b' F. induction F as [|[k v] [k' v'] b b' (E & S) F IH]; intro N; [reflexivity|]. cbn [fst snd] in *. subst k'.
  rewrite (subset_kept _ _ _ _ _ _ S) by (intro I; apply (N k I); left; reflexivity). f_equal. apply IH.
  intros key I J. apply (N key I). right. exact J.
Qed.

(** Names. *)
Lemma header_top : forall k, slash_free [k] -> forall x : out V, proper_names x ->
  dict_get (groups_of raw x) (txt k) = group_at raw x [k].
Proof. intros k S x P. change (txt k) with (path_name [k]). apply groups_get; [exact P|discriminate|exact S]. Qed.

Lemma plain_slash : forall k, ~ In slash (txt k) -> slash_free [k].
Proof.
  intros k N. constructor; [|constructor]. intros (x & y & ->). apply N. rewrite !txt_app. apply in_or_app. right. left. reflexivity.
Qed.

Ltac slashless := apply plain_slash; let I := fresh in intro I;
  repeat (destruct I as [I|I]; [vm_compute in I; discriminate|]); destruct I.

Lemma parameters_same : option_map gi_attrs (group_at raw o ["Parameters"%string]) = option_map gi_attrs (group_at raw (objects_of t) ["Parameters"%string]).
Proof.
  assert (Pl : plain_name t m "Parameters") by (apply (wf_plain _ _ _ W); cbn; tauto).
  unfold group_at. destruct (in_dec string_dec "Parameters"%string (map fst t)) as [I|I].
  - apply in_map_iff in I. destruct I as ((k' & n) & E & I). cbn in E. subst k'.
    destruct (wf_parameters _ _ _ W n I) as (b & ks & -> & N).
    destruct (header_at _ _ I (or_intror eq_refl) Pl) as (b' & A & F). cbn [node_attrs] in F.
    apply forall2_same in F; [|exact N]. subst b'. rewrite A.
    assert (B : at_path (objects_of t) ["Parameters"%string] = Some (EGroup b)).
    { apply (at_objects t _ _ U). split; [discriminate|]. exists (NGroup b ks). split; [|reflexivity]. econstructor; [exact I|constructor]. }
    rewrite B. reflexivity.
  - assert (G : forall n, ~ In ("Parameters"%string, n) t) by (intros n J; apply I; apply (in_map fst) in J; exact J).
    destruct (at_path o ["Parameters"%string]) as [e|] eqn:A.
    + exfalso. destruct (head_in _ _ (from_input _ _ _ A (plain_not_cells _ Pl))) as (n & J). apply (G n J).
    + destruct (at_path (objects_of t) ["Parameters"%string]) as [e|] eqn:B; [|reflexivity]. exfalso.
      apply (at_objects t _ _ U) in B. destruct B as (_ & n & S & _). destruct (head_in "Parameters"%string []) as (n' & J); [left; eauto|]. apply (G n' J).
Qed.

Lemma groups_same : forall g, In (txt g) (map fst metadata_fields_to_read) -> g <> "Header"%string ->
  option_map gi_attrs (dict_get (mf_groups (view o)) (txt g)) = option_map gi_attrs (dict_get (mf_groups (view (objects_of t))) (txt g)).
Proof.
  intros g I N. cbn [mf_groups view ReopenModel.view].
  repeat (destruct I as [E|I]; [apply txt_inj' in E; subst g; try congruence;
    (rewrite !header_top by (first [assumption|slashless]));
    first [exact parameters_same
          |rewrite same_group; [reflexivity|apply (wf_plain _ _ _ W); cbn; tauto|intros [X|X]; discriminate]]|]).
  destruct I.
Qed.

(** The header. *)
Lemma header_in : exists ks, In ("Header"%string, NGroup a ks) t.
Proof. exact (wf_header _ _ _ W). Qed.

Definition new_header (a' : attrs) : Prop :=
  Forall2 (fun kv kv' => fst kv' = fst kv /\
             subset_value m (assoc "NumPart_ThisFile"%string a) (output_type_of a) (fst kv) (snd kv) (snd kv')) a a'.

Lemma header_written : header_is (view (objects_of t)) (dict_of raw a)
  /\ exists a', header_is (view o) (dict_of raw a') /\ new_header a'.
Proof.
  destruct header_in as (ks & I). assert (Pl : plain_name t m "Header") by (apply (wf_plain _ _ _ W); cbn; tauto).
  assert (S : slash_free ["Header"%string]) by slashless. split.
  - exists (mk_ginfo (dict_of raw a) (below (objects_of t) ["Header"%string])). split; [|reflexivity].
    cbn [mf_groups view ReopenModel.view]. rewrite (header_top _ S _ Pt). unfold group_at.
    assert (B : at_path (objects_of t) ["Header"%string] = Some (EGroup a)).
    { apply (at_objects t _ _ U). split; [discriminate|]. exists (NGroup a ks). split; [|reflexivity]. econstructor; [exact I|constructor]. }
    rewrite B. reflexivity.
  - destruct (header_at _ _ I (or_introl eq_refl) Pl) as (a' & A & F). exists a'. split.
    + exists (mk_ginfo (dict_of raw a') (below o ["Header"%string])). split; [|reflexivity].
      cbn [mf_groups view ReopenModel.view]. rewrite (header_top _ S _ Po). unfold group_at. rewrite A. reflexivity.
    + unfold header_count in F. rewrite (assoc_unique _ _ _ top_nodup I) in F. exact F.
Qed.

(** Groups of which every member is copied. *)
Lemma plain_path_head : forall k q, plain_path t (k :: q) -> k <> "Cells"%string.
Proof.
  intros k q (_ & N & _) ->. apply N. split; [discriminate|]. exists "/"%string, (joined q). reflexivity.
Qed.

Lemma copied_same : forall p, slash_free p -> all_copied t p ->
  exists g g', dict_get (mf_groups (view (objects_of t))) (path_name p) = Some g
    /\ dict_get (mf_groups (view o)) (path_name p) = Some g' /\ gi_keys g' = gi_keys g.
Proof.
  intros p S (Np & b & ks & St & Nk & C). cbn [mf_groups view ReopenModel.view].
  rewrite !groups_get by assumption. unfold group_at.
  assert (B : at_path (objects_of t) p = Some (EGroup b)).
  { apply (at_objects t _ _ U). split; [exact Np|]. exists (NGroup b ks). auto. }
  rewrite B.
  destruct (write_tree_phases _ _ _ _ written) as (ce & me & de & le & o1 & o2 & o3 & P).
  assert (D : forall k n q d c, In (k, n) ks -> leads n q (NData d c) -> plain_path t (p ++ k :: q) ->
                exists d', In (p ++ k :: q, EData d' c) de).
  { intros k n q d c I L Pl. assert (Dt : dataset_at t (p ++ k :: q) d c).
    { unfold dataset_at. apply (stored_leads _ p (NGroup b ks)); [exact St|]. econstructor; eassumption. }
    destruct (ph_de _ _ _ _ _ _ _ _ _ _ _ P) as (ds & Hds & Hde).
    assert (X : exists d', at_path o (p ++ k :: q) = Some (EData d' c) /\ exists e, In (p ++ k :: q, e) de).
    { destruct (C73_data argsort m t o written _ _ _ Dt Pl) as (rs & size & d' & _ & A & _). exists d'. split; [exact A|].
      clear A d' rs size.
      unfold data_entries in Hde. destruct (all_ok _) as [l|] eqn:El; cbn [bind] in Hde; [|discriminate]. injection Hde as Hde.
      assert (Hin : In (p ++ k :: q, (d, c)) ds) by (apply (find_datasets_spec _ _ _ Hds); exists (p ++ k :: q); auto).
      pose proof (all_ok_each _ _ _ El) as F.
      assert (exists ly, data_entry argsort m (data_words (map fst (find_links t))) (p ++ k :: q, (d, c)) = Ok ly /\ In ly l) as (ly & Hly & Hll).
      { clear -F Hin. induction F as [|x y l1 l2 Hxy F IH]; [destruct Hin|].
        destruct Hin as [->|Hin]; [exists y; split; [assumption|now left]|].
        destruct (IH Hin) as (ly & H1 & H2). exists ly. split; [assumption|now right]. }
      cbn [data_entry] in Hly. apply data_words_plain in Pl. rewrite Pl in Hly.
      destruct (fd_rows d) as [|r0 rows]; [discriminate|].
      destruct (dataset_mask m (p ++ k :: q)) as [mk|]; cbn [bind] in Hly; [|discriminate].
      destruct (write_field argsort mk d) as [d'|]; cbn [bind] in Hly; [|discriminate]. injection Hly as <-.
      exists (EData d' c). subst de. apply in_concat. exists [(p ++ k :: q, EData d' c)]. split; [exact Hll|left; reflexivity]. }
    destruct X as (d' & A & e & J). exists d'. pose proof (ph_keep_de P _ _ J) as A'. rewrite A in A'. injection A' as <-. exact J. }
  assert (Ab : forall q e x, In (q, e) de -> is_above x q -> exists c, at_path o x = Some (EGroup c)).
  { intros q e x J A. destruct (create_all_above _ _ _ (ph_3 _ _ _ _ _ _ _ _ _ _ _ P) _ _ _ J A) as (c & X).
    exists c. destruct (create_all_spec _ _ _ (ph_4 _ _ _ _ _ _ _ _ _ _ _ P)) as (K & _). apply K. exact X. }
  assert (Hd : exists k0 p0, p = k0 :: p0 /\ k0 <> "Cells"%string).
  { destruct ks as [|[k n] ks]; [congruence|]. destruct (C k n (or_introl eq_refl)) as (q & d & c & _ & Pl).
    destruct p as [|k0 p0]; [congruence|]. exists k0, p0. split; [reflexivity|]. apply (plain_path_head k0 (p0 ++ k :: q)). exact Pl. }
  assert (G : exists c, at_path o p = Some (EGroup c)).
  { destruct ks as [|[k n] ks]; [congruence|]. destruct (C k n (or_introl eq_refl)) as (q & d & c & L & Pl).
    destruct (D k n q d c (or_introl eq_refl) L Pl) as (d' & J). apply (Ab _ _ p J). split; [exact Np|].
    exists (k :: q). split; [discriminate|reflexivity]. }
  destruct G as (c & G). rewrite G. do 2 eexists. split; [reflexivity|]. split; [reflexivity|]. cbn [gi_keys].
  apply below_same. intro key.
  assert (E1 : (exists e, at_path (objects_of t) (p ++ [key]) = Some e) <-> exists n, In (key, n) ks).
  { split.
    - intros (e & A). apply (at_objects t _ _ U) in A. destruct A as (_ & n & S1 & _). apply stored_split in S1.
      destruct S1 as (y & S1 & S2). rewrite (stored_unique _ _ _ S1 U _ St) in S2. inversion S2; subst. eauto.
    - intros (n & I). exists (entry_of_node n). apply (at_objects t _ _ U). split; [destruct p; discriminate|].
      exists n. split; [|reflexivity]. apply (stored_stored _ p (NGroup b ks)); [exact St|]. econstructor; [exact I|constructor]. }
  rewrite E1. split.
  - intros (e & A). destruct Hd as (k0 & p0 & -> & Nc). cbn [app] in A.
    destruct (from_input _ _ _ A Nc) as [(n & S1)|(r & d & x & L)].
    + change (k0 :: p0 ++ [key]) with ((k0 :: p0) ++ [key]) in S1. apply stored_split in S1.
      destruct S1 as (y & S1 & S2). rewrite (stored_unique _ _ _ S1 U _ St) in S2. inversion S2; subst. eauto.
    + change ((k0 :: p0 ++ [key]) ++ r) with (((k0 :: p0) ++ [key]) ++ r) in L. rewrite <- app_assoc in L.
      apply (leads_stored _ _ (NGroup b ks) _ _ U St) in L. cbn [app] in L. apply leads_group_inv in L.
      destruct L as [(E & _)|(k2 & m2 & r2 & I2 & E & _)]; [discriminate|]. injection E as -> _. eauto.
  - intros (n & I). destruct (C key n I) as (q & d & x & L & Pl). destruct (D key n q d x I L Pl) as (d' & J).
    destruct q as [|k1 q].
    + exists (EData d' x). apply (ph_keep_de P). exact J.
    + destruct (Ab _ _ (p ++ [key]) J) as (y & A); [|eauto]. split; [destruct p; discriminate|].
      exists (k1 :: q). split; [discriminate|]. rewrite <- app_assoc. reflexivity.
Qed.

End Written.

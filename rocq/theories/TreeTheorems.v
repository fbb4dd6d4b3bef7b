(** The structure of subset files: C73 and C74. *)
From Coq Require Import String List ZArith Lia Bool Ascii.
From Verif Require Import Base BaseLemmas RangesModel RangesSpec ReaderModel ReaderSpec SortModel SortProofs SubsetModel SubsetSpec
     SubsetProofs TreeModel TreeSpec TreeProofs TreeWriteProofs TreeSuccessProofs.
Import ListNotations.
Open Scope Z_scope.

Section C73.
Context {V : Type}.
Variables (argsort : list Z -> list nat) (m : tmask) (t : tree V).

(** A standard file can be written. *)
Theorem C73_writes : is_argsort argsort -> standard m t -> exists o, write_tree argsort m t = Ok o.
Proof. apply standard_writes. Qed.

Variable o : out V.
Hypothesis written : write_tree argsort m t = Ok o.

(** Every dataset with none of the writer's words in its path is written at the same path, with
    the same attributes and the rows of the mask of its group. *)
Theorem C73_data : forall p d a, dataset_at t p d a -> plain_path t p ->
  exists rs size d', mask_at m p rs size /\ at_path o p = Some (EData d' a) /\
    (is_argsort argsort -> mask_fits rs size d -> field_subset (indices_of rs) d d').
Proof.
  intros p d a Hd Hp. destruct (write_tree_phases _ _ _ _ written) as (ce & me & de & le & o1 & o2 & o3 & P).
  destruct (ph_de _ _ _ _ _ _ _ _ _ _ _ P) as (ds & Hds & Hde).
  unfold data_entries in Hde. destruct (all_ok _) as [l|] eqn:El; cbn [bind] in Hde; [|discriminate]. injection Hde as Hde.
  assert (Hin : In (p, (d, a)) ds) by (apply (find_datasets_spec _ _ _ Hds); exists p; auto).
  assert (exists ly, data_entry argsort m (data_words (map fst (find_links t))) (p, (d, a)) = Ok ly /\ In ly l) as (ly & Hly & Hll).
  { pose proof (all_ok_each _ _ _ El) as F. clear -F Hin. induction F as [|x y l1 l2 Hxy F IH]; [destruct Hin|].
    destruct Hin as [->|Hin]; [exists y; split; [assumption|now left]|].
    destruct (IH Hin) as (ly & H1 & H2). exists ly. split; [assumption|now right]. }
  cbn [data_entry] in Hly. apply data_words_plain in Hp. rewrite Hp in Hly.
  destruct (fd_rows d) as [|r0 rows] eqn:Er; [discriminate|].
  destruct (dataset_mask m p) as [[[rs size]|]|] eqn:Em; cbn [bind] in Hly; try discriminate.
  2:{ unfold write_field in Hly. rewrite Er in Hly. discriminate. }
  destruct (write_field argsort (Some (rs, size)) d) as [d'|] eqn:Ew; cbn [bind] in Hly; [|discriminate].
  injection Hly as <-. exists rs, size, d'. split; [now apply dataset_mask_spec|]. split.
  - apply (ph_keep_de P). rewrite <- Hde. apply in_concat. exists [(p, EData d' a)]. split; [exact Hll|now left].
  - intros Harg ((n & Hf & Hb) & Ho & Hsz & Hl). rewrite Hsz in Ew. clear size Hsz Em.
    destruct (write_field_ok argsort n d rs) as (d2 & Hd2 & Hs & _); auto; [congruence|].
    rewrite Hd2 in Ew. now injection Ew as <-.
Qed.

(** No other data is written, except the cell tables and groups copied whole. *)
Theorem C73_only_data : forall p d' a, at_path o p = Some (EData d' a) ->
  (exists q, p = "Cells"%string :: q) \/
  (exists k n q, p = k :: q /\ In (k, n) t /\ plain_name t m k /\ ~ is_header k /\ stored n q (NData d' a)) \/
  (exists d, dataset_at t p d a /\ plain_path t p).
Proof.
  intros p d' a H. destruct (write_tree_phases _ _ _ _ written) as (ce & me & de & le & o1 & o2 & o3 & P).
  destruct (ph_from P _ _ H) as [K|[K|[K|[K|(K & _)]]]]; [..|discriminate].
  - left. exact (cells_under _ _ _ (ph_ce _ _ _ _ _ _ _ _ _ _ _ P) _ _ K).
  - right. left. apply (metadata_in _ _ _ (ph_me _ _ _ _ _ _ _ _ _ _ _ P)) in K
      as (k & n & H1 & H2 & [(_ & _ & b & _ & K)|(H3 & q & n' & -> & H4 & K)]); [discriminate|].
    destruct n'; try discriminate. injection K as <- <-. exists k, n, q. auto.
  - right. right. destruct (ph_de _ _ _ _ _ _ _ _ _ _ _ P) as (ds & Hds & Hde).
    apply (data_in _ _ _ _ _ Hds Hde) in K as (d & b & d2 & mk & H1 & H2 & _ & _ & _ & K).
    injection K as _ <-. eauto.
  - rewrite (ph_le _ _ _ _ _ _ _ _ _ _ _ P) in K. apply link_entries_in in K as (k & tg & _ & _ & K). discriminate.
Qed.

(** Links of the top level are kept. *)
Theorem C73_links : forall k target, top_link t k target -> at_path o [k] = Some (ELink target).
Proof.
  intros k tg H. destruct (write_tree_phases _ _ _ _ written) as (ce & me & de & le & o1 & o2 & o3 & P).
  apply (ph_keep_le P). rewrite (ph_le _ _ _ _ _ _ _ _ _ _ _ P). apply link_entries_in. eauto.
Qed.

(** Every link of the output is one of them, or lies in a group that was copied whole. *)
Theorem C73_only_links : forall p target, at_path o p = Some (ELink target) ->
  (exists k, p = [k] /\ top_link t k target) \/
  (exists q, p = "Cells"%string :: q) \/
  (exists k n q dest, p = k :: q /\ In (k, n) t /\ plain_name t m k /\ stored n q (NLink target dest)).
Proof.
  intros p tg H. destruct (write_tree_phases _ _ _ _ written) as (ce & me & de & le & o1 & o2 & o3 & P).
  destruct (ph_from P _ _ H) as [K|[K|[K|[K|(K & _)]]]]; [..|discriminate].
  - right. left. exact (cells_under _ _ _ (ph_ce _ _ _ _ _ _ _ _ _ _ _ P) _ _ K).
  - right. right. apply (metadata_in _ _ _ (ph_me _ _ _ _ _ _ _ _ _ _ _ P)) in K
      as (k & n & H1 & H2 & [(_ & _ & b & _ & K)|(H3 & q & n' & -> & H4 & K)]); [discriminate|].
    destruct n' as [| |tg' dest]; try discriminate. injection K as <-. exists k, n, q, dest. auto.
  - destruct (ph_de _ _ _ _ _ _ _ _ _ _ _ P) as (ds & Hds & Hde).
    apply (data_in _ _ _ _ _ Hds Hde) in K as (d & b & d2 & mk & _ & _ & _ & _ & _ & K). discriminate.
  - left. rewrite (ph_le _ _ _ _ _ _ _ _ _ _ _ P) in K. apply link_entries_in in K as (k & tg' & H1 & -> & K).
    injection K as <-. eauto.
Qed.

(** The other groups are copied as they are: what the output has below the name is what the
    input has there, links and attributes included. *)
Theorem C73_metadata : NoDup (map fst t) -> forall k n, In (k, n) t -> plain_name t m k -> ~ is_header k ->
  forall q e, at_path o (k :: q) = Some e <-> exists n', stored n q n' /\ e = entry_of_node n'.
Proof.
  intros Hnd k n Hin Hp Hh. destruct (write_tree_phases _ _ _ _ written) as (ce & me & de & le & o1 & o2 & o3 & P).
  pose proof (metadata_in _ _ _ (ph_me _ _ _ _ _ _ _ _ _ _ _ P)) as Hme.
  destruct (ph_de _ _ _ _ _ _ _ _ _ _ _ P) as (ds & Hds & Hde).
  assert (Hst : forall q n', stored n q n' -> In (k :: q, entry_of_node n') me).
  { intros q n' Hs. apply Hme. exists k, n. split; [exact Hin|]. split; [exact Hp|]. right. split; [exact Hh|]. eauto. }
  assert (Hback : forall q e, In (k :: q, e) me -> exists n', stored n q n' /\ e = entry_of_node n').
  { intros q e H. apply Hme in H as (k' & n2 & H1 & H2 & [(H3 & H4 & _)|(H3 & q' & n' & H4 & H5 & H6)]).
    - injection H4 as <- _. contradiction.
    - injection H4 as <- <-. apply (assoc_unique _ _ _ Hnd) in H1. apply (assoc_unique _ _ _ Hnd) in Hin.
      rewrite Hin in H1. injection H1 as <-. eauto. }
  assert (Hno : forall q e, ~ In (k :: q, e) de).
  { intros q e H. destruct (ph_de_fresh P _ _ H) as [F1 F2].
    apply (data_in _ _ _ _ _ Hds Hde) in H as (d & b & d2 & mk & H1 & H2 & _).
    apply leads_group_inv in H1 as [[H1 _]|(k' & n2 & r & H3 & H4 & H1)]; [discriminate|]. injection H4 as <- <-.
    apply (assoc_unique _ _ _ Hnd) in H3. pose proof (assoc_unique _ _ _ Hnd Hin) as H4. rewrite H4 in H3. injection H3 as <-.
    apply leads_stored in H1 as [H1|(x & y & tg & dest & -> & H1)].
    - apply (F1 (EData d b)). exact (Hst _ _ H1).
    - destruct y as [|k2 y].
      + rewrite app_nil_r in F1. exact (F1 _ (Hst _ _ H1)).
      + destruct (F2 (k :: x) _ (Hst _ _ H1)) as [a Ha]; [|discriminate].
        split; [discriminate|]. exists (k2 :: y). split; [discriminate|reflexivity]. }
  assert (Hc : forall q e, ~ In (k :: q, e) ce).
  { intros q e H. apply (cells_under _ _ _ (ph_ce _ _ _ _ _ _ _ _ _ _ _ P)) in H as [q' H]. injection H as E _.
    destruct Hp as (_ & Hp & _). apply Hp. rewrite E. apply occurs_self. discriminate. }
  intros q e. split.
  - intros H. destruct (ph_from P _ _ H) as [K|[K|[K|[K|(K & q' & x & Hx & Ha)]]]].
    + destruct (Hc _ _ K).
    + eauto.
    + destruct (Hno _ _ K).
    + exfalso. pose proof (ph_le_fresh P _ _ K) as F. rewrite (ph_le _ _ _ _ _ _ _ _ _ _ _ P) in K.
      apply link_entries_in in K as (k' & tg & _ & E & _). injection E as <- ->.
      exact (F _ (Hst [] n (stored_here n))).
    + destruct Ha as (_ & r & Nr & ->). cbn [app] in Hx. destruct Hx as [Hx|[Hx|Hx]].
      * destruct (Hc _ _ Hx).
      * apply Hback in Hx as (n' & Hs & _). apply stored_prefix in Hs as [y Hy]. exists y. split; [exact Hy|].
        pose proof (ph_keep_me P _ _ (Hst _ _ Hy)) as E. congruence.
      * destruct (Hno _ _ Hx).
  - intros (n' & Hs & ->). apply (ph_keep_me P). now apply Hst.
Qed.

(** Header and Parameters keep their attributes, in order, apart from the type of the file and the
    numbers of particles or halos in it. *)
Theorem C73_header : forall k n, In (k, n) t -> is_header k -> plain_name t m k ->
  exists a, at_path o [k] = Some (EGroup a) /\
    Forall2 (fun kv kv' => fst kv' = fst kv /\
               subset_value m (header_count t) (output_type_of (node_attrs n)) (fst kv) (snd kv) (snd kv'))
            (node_attrs n) a.
Proof.
  intros k n Hin Hh Hp. destruct (write_tree_phases _ _ _ _ written) as (ce & me & de & le & o1 & o2 & o3 & P).
  pose proof (ph_me _ _ _ _ _ _ _ _ _ _ _ P) as Eme.
  assert (exists a, all_ok (map (rewrite_attr m (header_count t) (output_type_of (node_attrs n))) (node_attrs n)) = Ok a) as [a Ha].
  { unfold metadata_entries in Eme. destruct (all_ok _) as [l|] eqn:El in Eme; cbn [bind] in Eme; [|discriminate].
    pose proof (all_ok_each _ _ _ El) as F. clear -F Hin Hh Hp. 
    assert (exists ly, metadata_entries_of m t (metadata_words (map fst (find_links t)) m) (k, n) = Ok ly) as [ly Hly].
    { revert Hin F. generalize (metadata_entries_of m t (metadata_words (map fst (find_links t)) m)). clear. intros f Hin F.
      induction F as [|x y l1 l2 Hxy F IH]; [destruct Hin|]. destruct Hin as [->|Hin]; eauto. }
    cbn [metadata_entries_of] in Hly. apply metadata_words_plain in Hp. rewrite Hp in Hly.
    apply is_header_spec in Hh. rewrite Hh in Hly.
    destruct (all_ok _) as [a|]; [eauto|discriminate]. }
  exists a. split.
  - apply (ph_keep_me P). apply (metadata_in _ _ _ Eme). exists k, n. split; [exact Hin|]. split; [exact Hp|].
    left. split; [exact Hh|]. split; [reflexivity|]. eauto.
  - apply all_ok_each in Ha. clear -Ha. remember (output_type_of (node_attrs n)) as ot eqn:Eot. clear Eot. induction Ha as [|[k v] [k' v'] l1 l2 H F IH]; constructor; auto.
    apply rewrite_attr_spec in H. exact H.
Qed.

(** The cell tables: counts and offsets of the mask at the datasets that name the type (at all of
    them when the counts are shared), centres and extents in the order of the mask's cells,
    meta-data as it is. *)
Theorem C73_cells : forall b cells, assoc "Cells"%string t = Some (NGroup b cells) ->
  let shared := match tm_shared m with Some _ => true | None => false end in
  let off := (match assoc "OffsetsInFile" cells with Some _ => "OffsetsInFile" | None => "Offsets" end)%string in
  let sorted d d' := fd_2d d' = fd_2d d /\ fd_width d' = fd_width d /\
    (Forall (fun i => (i < length (fd_rows d))%nat) (tm_cell_sort m) ->
     Forall2 (fun i r => nth_error (fd_rows d) i = Some r) (tm_cell_sort m) (fd_rows d')) in
  (forall k l n q d x, In (k, l) (tm_counts m) -> assoc "Counts"%string cells = Some n -> leads n q (NData d x) ->
     shared = true \/ within k (joined ("Cells" :: "Counts" :: q)%string) ->
     at_path o ("Cells" :: "Counts" :: q)%string = Some (ETable l)) /\
  (forall k l n q d x, In (k, l) (tm_offsets m) -> assoc off cells = Some n -> leads n q (NData d x) ->
     shared = true \/ within k (joined ("Cells" :: off :: q)%string) ->
     at_path o ("Cells" :: off :: q)%string = Some (ETable l)) /\
  (forall d x, assoc "Centres"%string cells = Some (NData d x) ->
     exists d', at_path o ["Cells"; "Centres"]%string = Some (EData d' x) /\ sorted d d') /\
  (forall n q n', assoc "Meta-data"%string cells = Some n -> (forall tg dest, n <> NLink tg dest) -> stored n q n' ->
     at_path o ("Cells" :: "Meta-data" :: q)%string = Some (entry_of_node n')) /\
  (forall name n q d x, name = "MinPositions"%string \/ name = "MaxPositions"%string ->
     In "MinPositions"%string (map fst cells) -> In "MaxPositions"%string (map fst cells) ->
     assoc name cells = Some n -> (forall tg dest, n <> NLink tg dest) -> stored n q (NData d x) ->
     exists d', at_path o ("Cells" :: name :: q)%string = Some (EData d' x) /\ sorted d d').
Proof.
  intros b cells Hc shared off sorted.
  destruct (write_tree_phases _ _ _ _ written) as (ce & me & de & le & o1 & o2 & o3 & P).
  destruct (cells_in _ _ _ _ _ (ph_ce _ _ _ _ _ _ _ _ _ _ _ P) Hc) as (K1 & K2 & K3 & K4 & K5).
  assert (Hs : forall d, sorted d (sorted_field (tm_cell_sort m) d)).
  { intros d. split; [reflexivity|]. split; [reflexivity|]. apply sorted_rows. }
  split; [|split; [|split; [|split]]].
  - intros k l n q d x H1 H2 H3 H4. apply (ph_keep_ce P). exact (K1 k l n q d x H1 H2 H3 H4).
  - intros k l n q d x H1 H2 H3 H4. apply (ph_keep_ce P). exact (K2 k l n q d x H1 H2 H3 H4).
  - intros d x H1. eexists. split; [apply (ph_keep_ce P); exact (K3 d x H1)|apply Hs].
  - intros n q n' H1 H2 H3. apply (ph_keep_ce P). exact (K4 n q n' H1 H2 H3).
  - intros name n q d x H1 H2 H3 H4 H5 H6. eexists.
    split; [apply (ph_keep_ce P); exact (K5 name n q d x H1 H2 H3 H4 H5 H6)|apply Hs].
Qed.

(** A dataset outside the groups of particle types, not skipped, makes the writer fail when the
    mask has no shared counts. *)
Theorem C74_stray : forall p d a, dataset_at t p d a -> plain_path t p ->
  tm_shared m = None -> occurs "PartType" (joined p).
Proof.
  intros p d a Hd Hp Hs. destruct (C73_data p d a Hd Hp) as (rs & size & d' & [Hm|(_ & k & q & _ & _ & _ & Ho)] & _);
    [congruence|exact Ho].
Qed.

(** Groups that are not copied whole lose their attributes: those of the particle types. *)
Theorem C74_bare_groups : forall k q a, at_path o (k :: q) = Some (EGroup a) -> k <> "Cells"%string ->
  ~ plain_name t m k -> a = [].
Proof.
  intros k q a H Hc Hp. destruct (write_tree_phases _ _ _ _ written) as (ce & me & de & le & o1 & o2 & o3 & P).
  destruct (ph_from P _ _ H) as [K|[K|[K|[K|(K & _)]]]].
  - apply (cells_under _ _ _ (ph_ce _ _ _ _ _ _ _ _ _ _ _ P)) in K as [q' K]. injection K as K _. contradiction.
  - apply (metadata_in _ _ _ (ph_me _ _ _ _ _ _ _ _ _ _ _ P)) in K
      as (k' & n & H1 & H2 & [(_ & K & _)|(H3 & q' & n' & K & _)]); injection K as <- _; contradiction.
  - destruct (ph_de _ _ _ _ _ _ _ _ _ _ _ P) as (ds & Hds & Hde).
    apply (data_in _ _ _ _ _ Hds Hde) in K as (d & b & d2 & mk & _ & _ & _ & _ & _ & K). discriminate.
  - rewrite (ph_le _ _ _ _ _ _ _ _ _ _ _ P) in K. apply link_entries_in in K as (k' & tg' & _ & _ & K). discriminate.
  - now injection K.
Qed.

(** A link below a group of a particle type is replaced by a copy of the data it leads to. *)
Theorem C74_nested_links : forall k n q target dest d a,
  In (k, n) t -> stored n q (NLink target (Some dest)) -> leads dest [] (NData d a) -> plain_path t (k :: q) ->
  exists d', at_path o (k :: q) = Some (EData d' a).
Proof.
  intros k n q tg dest d a Hin Hs Hl Hp.
  assert (Hd : dataset_at t (k :: q) d a).
  { unfold dataset_at. econstructor; [exact Hin|]. clear -Hs Hl.
    remember (NLink tg (Some dest)) as x eqn:Ex. induction Hs as [n|b ks k2 m2 p n H1 H2 IH]; subst.
    - now constructor.
    - econstructor; [exact H1|]. now apply IH. }
  destruct (C73_data _ _ _ Hd Hp) as (rs & size & d' & _ & H & _). eauto.
Qed.

(** A dataset with a word of the list in its path is left out, unless its group is copied whole:
    the words are looked for anywhere in the path. *)
Theorem C74_words_drop : forall k q d a, dataset_at t (k :: q) d a -> ~ plain_path t (k :: q) ->
  ~ plain_name t m k -> k <> "Cells"%string -> forall d' a', at_path o (k :: q) <> Some (EData d' a').
Proof.
  intros k q d a Hd Hp Hn Hc d' a' H.
  destruct (C73_only_data _ _ _ H) as [[q' E]|[(k' & n & q' & E & _ & H2 & _)|(d2 & _ & H2)]].
  - injection E as E _. contradiction.
  - injection E as <- _. contradiction.
  - contradiction.
Qed.

End C73.

(** The words of the header: the types by number, the default type of a file and the types of
    subsets, and where the numbers of particles are looked up. *)
Theorem C73_header_words {V} (t : tree V) (a : attrs) :
  (forall i k, nth_error known_types i = Some k <->
     (i < 8)%nat /\ k = String.append "PartType" (String (ascii_of_nat (48 + i)) EmptyString)) /\
  (assoc "OutputType"%string a = None -> output_type_of a = "FullVolume"%string) /\
  (forall s, assoc "OutputType"%string a = Some (AText s) -> output_type_of a = s) /\
  (forall s s', subset_output_type s = Ok s' <->
     In (s, s') [("FullVolume", "VolumeSubset"); ("SOAP", "SOAPSubset"); ("FOF", "FOFSubset");
                 ("VolumeSubset", "VolumeSubset"); ("SOAPSubset", "SOAPSubset"); ("FOFSubset", "FOFSubset")]%string) /\
  (forall v, header_count t = Some v <->
     exists n, assoc "Header"%string t = Some n /\ assoc "NumPart_ThisFile"%string (node_attrs n) = Some v).
Proof.
  split; [|split; [|split; [|split]]].
  - intros i k. split.
    + intros H. assert (i < 8)%nat by (change 8%nat with (length known_types); apply nth_error_Some; congruence).
      split; [assumption|]. do 8 (destruct i as [|i]; [cbn in H; injection H as <-; reflexivity|]). lia.
    + intros [H ->]. do 8 (destruct i as [|i]; [reflexivity|]). lia.
  - unfold output_type_of. now intros ->.
  - unfold output_type_of. now intros s ->.
  - intros s s'. unfold subset_output_type. split.
    + repeat match goal with |- context [(s =? ?w)%string] => destruct (String.eqb_spec s w) as [->|_] end;
        intros H; try discriminate; injection H as <-; cbn; tauto.
    + cbn. intros H. repeat (destruct H as [H|H]; [injection H as <- <-; reflexivity|]). destruct H.
  - intros v. unfold header_count. destruct (assoc _ t) as [n|].
    + split; [intros H; exists n; split; [reflexivity|exact H]|]. intros (n' & E & H). injection E as ->. exact H.
    + split; [discriminate|]. intros (n & E & _). discriminate.
Qed.

(** * Cases *)

Definition ex_field (l : list Z) : field Z := mk_field Contiguous false 1 (map (fun z => [z]) l).

Open Scope string_scope.

Definition ex_part (extra : tree Z) : node Z :=
  NGroup [("NumberOfFields", ARaw 2)]
    ([("Masses", NData (ex_field [10; 11; 12; 13]%Z) [("Units", AText "mass")]);
      ("MassAlias", NLink "/PartType0/Masses"
                          (Some (NData (ex_field [10; 11; 12; 13]%Z) [("Units", AText "mass")])))] ++ extra).

Definition ex_tree (extra : tree Z) (links : tree Z) : tree Z :=
  ([("Cells", NGroup [] [("Centres", NData (ex_field [5; 6]%Z) []);
                        ("Counts", NGroup [] [("PartType0", NData (ex_field [2; 2]%Z) [])]);
                        ("Meta-data", NGroup [("dimension", AInts [2; 1; 1]%Z)] []);
                        ("OffsetsInFile", NGroup [] [("PartType0", NData (ex_field [0; 2]%Z) [])])]);
   ("Code", NGroup [("Code", AText "SWIFT")] []);
   ("GasParticles", NLink "/PartType0" (Some (ex_part extra)));
   ("Header", NGroup [("NumPart_ThisFile", AInts [4; 0]%Z); ("OutputType", AText "FullVolume"); ("RunName", AText "test")] []);
   ("PartType0", ex_part extra);
   ("SubgridScheme", NGroup [] [("NamedColumns", NData (ex_field [7]%Z) [])])] ++ links)%list.

Definition ex_mask : tmask :=
  mk_tmask None [("PartType0", ([(0, 1); (2, 4)], 3)%Z)] [("PartType0", [1; 2]%Z)] [("PartType0", [0; 1]%Z)]
           [0%nat; 1%nat] ["PartType0"].

Definition ex_out : out Z :=
  match write_tree stable_argsort ex_mask (ex_tree [] []) with Ok o => o | Err _ => [] end.

Example ex_written : write_tree stable_argsort ex_mask (ex_tree [] []) = Ok ex_out.
Proof. vm_compute. reflexivity. Qed.

Example ex_masses : at_path ex_out ["PartType0"; "Masses"] = Some (EData (ex_field [10; 12; 13]%Z) [("Units", AText "mass")]).
Proof. vm_compute. reflexivity. Qed.

Example ex_top_link : at_path ex_out ["GasParticles"] = Some (ELink "/PartType0").
Proof. vm_compute. reflexivity. Qed.

Example ex_header : at_path ex_out ["Header"] =
  Some (EGroup [("NumPart_ThisFile", AInts [3; 0]%Z); ("OutputType", AText "VolumeSubset"); ("RunName", AText "test")]).
Proof. vm_compute. reflexivity. Qed.

Example ex_counts : at_path ex_out ["Cells"; "Counts"; "PartType0"] = Some (ETable [1; 2]%Z).
Proof. vm_compute. reflexivity. Qed.

(** The example is standard, with a dataset below the link and one that is skipped. *)
Lemma ex_plain p : skips (data_words (map fst (find_links (ex_tree [] [])))) (joined p) = false ->
  plain_path (ex_tree [] []) p.
Proof. apply data_words_plain. Qed.

Ltac kids := repeat match goal with
  | H : _ \/ _ |- _ => destruct H as [H|H]
  | H : (_, _) = (_, _) |- _ => first [discriminate H | injection H; clear H; intros; subst]
  | H : In _ (_ :: _) |- _ => destruct H as [H|H]
  | H : In _ [] |- _ => destruct H
  | H : False |- _ => destruct H
  end.

Ltac nodup := cbn; repeat (apply NoDup_cons; [cbn; intuition discriminate|]); apply NoDup_nil.

Ltac uniq := cbn; lazymatch goal with
  | |- uniquely_named (NData _ _) => apply un_data
  | |- uniquely_named (NLink _ (Some _)) => apply un_dest; uniq
  | |- uniquely_named (NGroup _ _) =>
      apply un_group; [nodup|let k := fresh "k" in let n := fresh "n" in let H := fresh "H" in intros k n H; cbn in H; kids; uniq]
  end.

Ltac resl := cbn; lazymatch goal with
  | |- resolved (NData _ _) => apply rs_data
  | |- resolved (NLink _ (Some _)) => apply rs_link; resl
  | |- resolved (NGroup _ _) =>
      apply rs_group; let k := fresh "k" in let n := fresh "n" in let H := fresh "H" in intros k n H; cbn in H; kids; resl
  end.

Example ex_standard : standard ex_mask (ex_tree [] []).
Proof.
  constructor.
  - unfold ex_tree, ex_part; uniq.
  - unfold ex_tree, ex_part; resl.
  - intros k tg [dest H]. cbn in H. kids; try discriminate.
  - eexists _, _. split; [left; reflexivity|]. repeat split.
    + eexists _, _. split; [right; left; reflexivity|]. left. cbn. lia.
    + eexists "OffsetsInFile", _, _. split; [do 3 right; left; reflexivity|]. split; [now left|]. left. cbn. lia.
    + now left.
    + cbn. auto.
  - intros k n key v H [-> | ->] Hv; cbn in H; kids; try discriminate.
    cbn in Hv. kids.
    + eexists. right. left. split; [reflexivity|]. split; [now left|]. exists [4; 0]%Z, [3; 0]%Z. split; [reflexivity|].
      split; [reflexivity|]. split; [reflexivity|]. intros [|[|i]] a b Ha Hb; cbn in *; try discriminate.
      * injection Ha as <-. injection Hb as <-. right. split; [lia|]. right. split; [reflexivity|].
        exists "PartType0". eexists. split; reflexivity.
      * injection Ha as <-. injection Hb as <-. left. auto.
      * destruct i; discriminate.
    + eexists. left. split; [reflexivity|]. exists "VolumeSubset". split; reflexivity.
    + eexists. do 3 right. repeat split; try discriminate; intros; discriminate.
  - intros p d a Hd Hp. apply data_words_plain in Hp.
    assert (exists l, find_datasets [] (NGroup [] (ex_tree [] [])) = Ok l) as [l Hl] by (eexists; reflexivity).
    assert (Hin : In (p, (d, a)) l) by (apply (find_datasets_spec _ _ _ Hl); exists p; auto).
    vm_compute in Hl. injection Hl as <-.
    destruct Hin as [E|Hin]; [injection E as <- <- <-; vm_compute in Hp; discriminate|].
    destruct Hin as [E|Hin]; [injection E as <- <- <-; vm_compute in Hp; discriminate|].
    destruct Hin as [E|Hin]; [injection E as <- <- <-; vm_compute in Hp; discriminate|].
    destruct Hin as [E|Hin]; [injection E as <- <- <-; vm_compute in Hp; discriminate|].
    destruct Hin as [E|Hin]; [injection E as <- <- <-; vm_compute in Hp; discriminate|].
    assert (Hfit : forall p q, p = "PartType0" :: q -> (exists rs size, mask_at ex_mask p rs size /\ mask_fits rs size (ex_field [10; 11; 12; 13]%Z)) /\
              (forall k q0, p = k :: q0 -> ~ plain_name (ex_tree [] []) ex_mask k)).
    { intros p' q ->. split.
      - exists [(0, 1); (2, 4)]%Z, 3%Z. split.
        + right. split; [reflexivity|]. exists "PartType0", q. repeat split; [now left|discriminate|].
          exists "/", ("0" ++ joined q). reflexivity.
        + split; [|split; [|split]].
          * exists 4%Z. split; [repeat split; cbn; [discriminate|intros c H; discriminate]|].
            repeat constructor; cbn; lia.
          * repeat constructor; cbn; lia.
          * reflexivity.
          * discriminate.
      - intros k q0 E (_ & _ & H). injection E as <- <-. apply (H "PartType0" "PartType0"); [now left|now apply first_part_spec|]. now apply occurs_self. }
    destruct Hin as [E|Hin].
    { injection E as <- <- <-. split; [discriminate|]. apply Hfit with (q := ["Masses"]). reflexivity. }
    destruct Hin as [E|Hin].
    { injection E as <- <- <-. split; [discriminate|]. apply Hfit with (q := ["MassAlias"]). reflexivity. }
    destruct Hin as [E|Hin]; [injection E as <- <- <-; vm_compute in Hp; discriminate|]. destruct Hin.
Qed.

(** * Where the copy differs from the original *)

(** A link inside a particle group becomes a second copy, and the group's attributes are lost. *)
Theorem C74_preserved_refuted :
  exists (m : tmask) (t : tree Z) o n, standard m t /\ write_tree stable_argsort m t = Ok o /\
    In ("PartType0", n) t /\
    (exists tg dest, stored n ["MassAlias"] (NLink tg dest)) /\
    (forall tg, at_path o ["PartType0"; "MassAlias"] <> Some (ELink tg)) /\
    node_attrs n <> [] /\ at_path o ["PartType0"] = Some (EGroup []).
Proof.
  exists ex_mask, (ex_tree [] []), ex_out, (ex_part []).
  split; [exact ex_standard|]. split; [exact ex_written|]. split; [do 4 right; now left|].
  split; [|split; [|split]].
  - eexists _, _. econstructor; [right; left; reflexivity|constructor].
  - intros tg. vm_compute. discriminate.
  - discriminate.
  - vm_compute. reflexivity.
Qed.

(** A field is lost because its name has a link's name, or "Cells", in it. *)
Theorem C74_substring_refuted :
  exists (m : tmask) (t : tree Z) o d a, write_tree stable_argsort m t = Ok o /\
    dataset_at t ["PartType0"; "NearbyCells"] d a /\ at_path o ["PartType0"; "NearbyCells"] = None /\
    dataset_at t ["PartType0"; "GasEnergy"] d a /\ at_path o ["PartType0"; "GasEnergy"] = None.
Proof.
  exists ex_mask,
    (ex_tree [("NearbyCells", NData (ex_field [1; 2; 3; 4]%Z) []); ("GasEnergy", NData (ex_field [1; 2; 3; 4]%Z) [])]
             [("Gas", NLink "/Code" (Some (NGroup [] [])))]).
  eexists. exists (ex_field [1; 2; 3; 4]%Z), []. split; [vm_compute; reflexivity|]. split; [|split; [|split]].
  - econstructor; [do 4 right; left; reflexivity|]. econstructor; [do 2 right; left; reflexivity|constructor].
  - vm_compute. reflexivity.
  - econstructor; [do 4 right; left; reflexivity|]. econstructor; [do 3 right; left; reflexivity|constructor].
  - vm_compute. reflexivity.
Qed.

(** A group of the top level with a dataset of its own stops the writer. *)
Theorem C74_extra_group_refuted :
  exists (m : tmask) (t : tree Z), uniquely_named (NGroup [] t) /\ resolved (NGroup [] t) /\
    write_tree stable_argsort m t = Err RuntimeError /\
    (exists o, write_tree stable_argsort m (removelast t) = Ok o).
Proof.
  exists ex_mask, (ex_tree [] [("Notes", NGroup [] [("Table", NData (ex_field [1]%Z) [])])]). split; [|split; [|split]].
  - unfold ex_tree, ex_part; uniq.
  - unfold ex_tree, ex_part; resl.
  - vm_compute. reflexivity.
  - exists ex_out. vm_compute. reflexivity.
Qed.

Print Assumptions C73_writes.
Print Assumptions C73_data.
Print Assumptions C73_only_data.
Print Assumptions C73_links.
Print Assumptions C73_only_links.
Print Assumptions C73_metadata.
Print Assumptions C73_header.
Print Assumptions C73_cells.
Print Assumptions C73_header_words.
Print Assumptions C74_stray.
Print Assumptions C74_bare_groups.
Print Assumptions C74_nested_links.
Print Assumptions C74_words_drop.
Print Assumptions C74_preserved_refuted.
Print Assumptions C74_substring_refuted.
Print Assumptions C74_extra_group_refuted.

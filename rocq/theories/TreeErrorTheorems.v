(** C74: which errors the subset writer gives. *)
From Coq Require Import String List ZArith Lia Bool.
From Verif Require Import Base BaseLemmas RangesModel RangesSpec ReaderModel ReaderSpec SortModel SortProofs SubsetModel SubsetSpec
     SubsetProofs TreeModel TreeSpec TreeProofs TreeWriteProofs TreeSuccessProofs TreeTheorems.
Import ListNotations.
Open Scope Z_scope.

(** * Specification *)

(** What is wrong with a dataset that is to be copied. *)
Inductive defect {V} (m : tmask) (p : path) (d : field V) : pyerr -> Prop :=
| no_rows : fd_rows d = [] -> defect m p d IndexError
| no_such_type : fd_rows d <> [] -> tm_shared m = None -> occurs "PartType" (joined p) ->
    (forall k q, p = k :: q -> ~ In k known_types) -> defect m p d KeyError
| no_type : fd_rows d <> [] -> tm_shared m = None -> ~ occurs "PartType" (joined p) -> defect m p d RuntimeError
| no_mask k q : fd_rows d <> [] -> tm_shared m = None -> p = k :: q -> In k known_types -> ~ In k (map fst (tm_types m)) ->
    defect m p d RuntimeError.

(** A name the group of cells needs. *)
Definition needed (cells : list string) : Prop :=
  In "Counts"%string cells /\ (In "OffsetsInFile"%string cells \/ In "Offsets"%string cells) /\
  In "Centres"%string cells /\ In "Meta-data"%string cells.

(** * Theorems *)

Lemma not_assoc {A} k (l : list (string * A)) : ~ In k (map fst l) <-> assoc k l = None.
Proof.
  split; [apply assoc_none|]. intros E H. induction l as [|[k' a] l IH]; [destruct H|]. cbn [assoc] in E.
  destruct (String.eqb_spec k k') as [->|N]; [discriminate|]. destruct H as [H|H]; [cbn in H; congruence|]. now apply IH.
Qed.

(** A file without a group of cells, or with one that misses a table, the centres or the metadata. *)
Theorem C74_cells_errors : forall (V : Type) argsort (m : tmask) (t : tree V), uniquely_named (NGroup [] t) -> resolved (NGroup [] t) ->
  (~ In "Cells"%string (map fst t) \/ exists a cells, In ("Cells"%string, NGroup a cells) t /\ ~ needed (map fst cells)) ->
  write_tree argsort m t = Err KeyError.
Proof.
  intros V argsort m t Hu Hr H. unfold write_tree. assert (E : cells_entries m t = Err KeyError); [|now rewrite E].
  unfold cells_entries. destruct H as [H|(a & cells & Hc & Hn)].
  { apply not_assoc in H. rewrite H. reflexivity. }
  assert (Huc : uniquely_named (NGroup a cells)) by (eapply unique_kid; eauto).
  assert (Hrc : resolved (NGroup a cells)) by (eapply resolved_kid; eauto).
  assert (Hnd : NoDup (map fst cells)) by (inversion Huc; assumption).
  assert (Hndt : NoDup (map fst t)) by (inversion Hu; assumption).
  assert (Hrk : forall k n, In (k, n) cells -> resolved n) by (intros; eapply resolved_kid; eauto).
  assert (Hfind : forall k n p, assoc k cells = Some n -> exists l, find_datasets p n = Ok l).
  { intros k n p Ek. apply find_datasets_resolved. apply (Hrk k). now apply assoc_in. }
  rewrite (assoc_unique _ _ _ Hndt Hc). cbn [kids_of bind].
  set (off := match assoc "OffsetsInFile" cells with Some _ => "OffsetsInFile"%string | None => "Offsets"%string end).
  destruct (assoc "Counts" cells) as [n1|] eqn:E1; [|reflexivity]. destruct (Hfind _ _ ["Cells"; "Counts"]%string E1) as [l1 ->]. cbn [bind].
  destruct (assoc off cells) as [n2|] eqn:E2; [|reflexivity]. destruct (Hfind _ _ ["Cells"%string; off] E2) as [l2 ->]. cbn [bind].
  assert (I1 : In "Counts"%string (map fst cells)) by (apply in_map_iff; exists ("Counts"%string, n1); split; [reflexivity|now apply assoc_in]).
  assert (I2 : In "OffsetsInFile"%string (map fst cells) \/ In "Offsets"%string (map fst cells)).
  { assert (I : In off (map fst cells)) by (apply in_map_iff; exists (off, n2); split; [reflexivity|now apply assoc_in]).
    unfold off in I. destruct (assoc "OffsetsInFile" cells); auto. }
  assert (Hcopy : forall k, In k (map fst cells) -> exists l, @copy_of V cells k = Ok l).
  { intros k Hk. exact (copy_of_ok cells k Hk Hrk). }
  destruct (in_dec string_dec "Centres"%string (map fst cells)) as [I3|I3].
  2:{ apply not_assoc in I3. unfold copy_of at 1. rewrite I3. reflexivity. }
  destruct (Hcopy _ I3) as [l3 ->]. cbn [bind].
  destruct (in_dec string_dec "Meta-data"%string (map fst cells)) as [I4|I4].
  2:{ apply not_assoc in I4. unfold copy_of at 1. rewrite I4. reflexivity. }
  exfalso. apply Hn. repeat split; assumption.
Qed.

Lemma defect_error {V} argsort (m : tmask) words (p : path) (d : field V) a e : defect m p d e -> skips words (joined p) = false ->
  data_entry argsort m words (p, (d, a)) = Err e.
Proof.
  intros H Hs. unfold data_entry. rewrite Hs. unfold dataset_mask, write_field.
  assert (Ho : forall w s, occurs w s -> contains w s = true) by (intros w s [_ O]; now apply contains_spec).
  inversion H as [H1|H1 H2 H3 H4|H1 H2 H3|k q H1 H2 H3 H4 H5]; subst.
  - now rewrite H1.
  - destruct (fd_rows d) eqn:Er; [congruence|]. rewrite H2, (Ho _ _ H3). destruct p as [|k q]; [reflexivity|].
    destruct (in_list k known_types) eqn:Ei; [|reflexivity]. exfalso. apply (H4 k q eq_refl). unfold in_list in Ei.
    apply existsb_exists in Ei as (x & Hx & Ex). apply String.eqb_eq in Ex. now subst.
  - destruct (fd_rows d) eqn:Er; [congruence|]. rewrite H2. destruct (contains "PartType" (joined p)) eqn:Ec.
    + exfalso. apply H3. split; [discriminate|now apply contains_spec].
    + reflexivity.
  - destruct (fd_rows d) eqn:Er; [congruence|]. rewrite H2. destruct (contains "PartType" (joined (k :: q))); [|reflexivity].
    destruct (in_list k known_types) eqn:Ei.
    + apply not_assoc in H5. rewrite H5. reflexivity.
    + exfalso. assert (in_list k known_types = true); [|congruence]. apply existsb_exists. exists k. split; [exact H4|apply String.eqb_refl].
Qed.

Lemma all_ok_first {A B} (f : A -> res B) e l : (forall x, In x l -> (exists y, f x = Ok y) \/ f x = Err e) -> (exists x, In x l /\ f x = Err e) ->
  all_ok (map f l) = Err e.
Proof.
  induction l as [|x l IH]; intros H (y & Hy & Ey); [destruct Hy|]. cbn.
  destruct (H x (or_introl eq_refl)) as [[z Hz]|Hz]; rewrite Hz; [|reflexivity].
  rewrite IH; [reflexivity|intros; apply H; now right|]. exists y. destruct Hy as [->|Hy]; [congruence|auto].
Qed.

(** A standard file some of whose datasets have the defect. *)
Theorem C74_data_errors : forall (V : Type) argsort (m : tmask) (t : tree V) (e : pyerr), is_argsort argsort ->
  uniquely_named (NGroup [] t) -> resolved (NGroup [] t) ->
  (exists a cells, In ("Cells"%string, NGroup a cells) t /\ standard_cells m cells) ->
  (forall k n key v, In (k, n) t -> is_header k -> In (key, v) (node_attrs n) ->
     exists v', subset_value m (header_count t) (output_type_of (node_attrs n)) key v v') ->
  (forall p d a, dataset_at t p d a -> plain_path t p ->
     defect m p d e \/ (fd_rows d <> [] /\ exists rs size, mask_at m p rs size /\ mask_fits rs size d)) ->
  (exists p d a, dataset_at t p d a /\ plain_path t p /\ defect m p d e) ->
  write_tree argsort m t = Err e.
Proof.
  intros V argsort m t e Harg Hu Hr (a & cells & Hc & Hsc) Hh Hd (p0 & d0 & a0 & Hd0 & Hp0 & Hdef).
  destruct (cells_ok m t a cells Hu Hr Hc Hsc) as (ce & Ece & Fce).
  destruct (metadata_ok m t Hu Hh) as (me & Eme & Fme).
  assert (Hce : forall p e, In (p, e) ce -> exists q, p = "Cells"%string :: q) by (apply cells_under with (1 := Ece)).
  assert (Hme : forall p e, In (p, e) me -> exists k q, p = k :: q /\ plain_name t m k).
  { intros p x H. apply (metadata_in m t me Eme) in H as (k & n & _ & Hp & [(_ & -> & _)|(_ & q & n' & -> & _)]); eauto. }
  assert (Full : ForallOrdPairs compatible (ce ++ me)).
  { apply FOP_app; auto. intros [p x] [p' x'] H1 H2. destruct (Hce _ _ H1) as [q ->]. destruct (Hme _ _ H2) as (k & q' & -> & Hp).
    apply heads_compatible. intros <-. destruct Hp as (_ & Hp & _). apply Hp. apply occurs_self. discriminate. }
  destruct (create_all_ok (ce ++ me) [] [] eq_refl Full) as [o Ho]. rewrite create_all_app in Ho.
  unfold write_tree. rewrite Ece. cbn [bind].
  destruct (create_all [] ce) as [o1|]; cbn [bind] in *; [|discriminate]. rewrite Eme. cbn [bind].
  destruct (create_all o1 me) as [o2|]; cbn [bind] in *; [|discriminate].
  destruct (find_datasets_resolved _ Hr []) as [ds Hds]. rewrite Hds. cbn [bind].
  unfold data_entries. rewrite (all_ok_first _ e); [reflexivity|..].
  - intros [p [d b]] Hin. apply (find_datasets_spec _ _ _ Hds) in Hin as (q & -> & Hq). cbn [app].
    destruct (skips (data_words (map fst (find_links t))) (joined q)) eqn:Es.
    { left. unfold data_entry. rewrite Es. eauto. }
    assert (Hpl := Es). apply data_words_plain in Hpl.
    destruct (Hd _ _ _ Hq Hpl) as [Hx|(Hne & rs & size & Hm & ((n & Hf & Hb) & Hor & -> & Hl))].
    + right. now apply defect_error.
    + left. unfold data_entry. rewrite Es. destruct (fd_rows d) eqn:Er; [congruence|]. apply dataset_mask_spec in Hm. rewrite Hm. cbn [bind].
      destruct (write_field_ok argsort n d rs) as (d' & Hd' & _); auto; [congruence|]. rewrite Hd'. cbn [bind]. eauto.
  - exists (p0, (d0, a0)). split.
    + apply (find_datasets_spec _ _ _ Hds). exists p0. split; [reflexivity|exact Hd0].
    + apply defect_error; [exact Hdef|]. destruct (skips _ (joined p0)) eqn:Es; [|reflexivity]. exfalso.
      assert (~ plain_path t p0); [|auto]. intros Hp. apply data_words_plain in Hp. congruence.
Qed.

(** * Cases *)

Open Scope string_scope.

Example C74_no_rows_example :
  write_tree stable_argsort ex_mask (ex_tree [("Empty", NData (ex_field []) [])] []) = Err IndexError.
Proof. reflexivity. Qed.

(** A dataset outside of the particle types, one of a type the writer does not know, and one of a type the mask does not
    have. *)
Example C74_stray_example :
  let extra k := ex_tree [] [(k, NGroup [] [("Data", NData (ex_field [1]%Z) [])])] in
  write_tree stable_argsort ex_mask (extra "Stray") = Err RuntimeError
  /\ write_tree stable_argsort ex_mask (extra "PartType8") = Err KeyError
  /\ write_tree stable_argsort ex_mask (extra "PartType1") = Err RuntimeError
  /\ defect ex_mask ["Stray"; "Data"] (ex_field [1]%Z) RuntimeError.
Proof.
  cbv zeta. repeat split. apply no_type; [discriminate|reflexivity|].
  intros [_ (a & b & E)]. cbn in E. repeat (destruct a as [|? a]; [discriminate|]; cbn in E; injection E as _ E).
  destruct a; discriminate.
Qed.

Example C74_cells_example :
  ~ needed (map fst (match ex_tree [] [] with (_, NGroup _ cells) :: _ => filter (fun c => negb (fst c =? "Centres")) cells | _ => [] end))
  /\ write_tree stable_argsort ex_mask
       (match ex_tree [] [] with (k, NGroup a cells) :: t => (k, NGroup a (filter (fun c => negb (fst c =? "Centres")) cells)) :: t | t => t end)
     = Err KeyError.
Proof. split; [|reflexivity]. intros (_ & _ & H & _). cbn in H. repeat (destruct H as [H|H]; [discriminate|]). destruct H. Qed.

Print Assumptions C74_cells_errors.
Print Assumptions C74_data_errors.

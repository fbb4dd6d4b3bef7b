(** Proofs about what the writer puts in the file. *)
From Coq Require Import String List ZArith Lia Bool Ascii.
From Verif Require Import Base BaseLemmas RangesModel RangesSpec ReaderModel ReaderSpec SubsetModel SubsetSpec
     SubsetProofs TreeModel TreeSpec TreeProofs.
Import ListNotations.
Open Scope Z_scope.

Lemma all_ok_concat {A B} (f : A -> res (list B)) : forall l r, all_ok (map f l) = Ok r ->
  forall y, In y (concat r) <-> exists x ly, In x l /\ f x = Ok ly /\ In y ly.
Proof.
  induction l as [|x l IH]; intros r H y; cbn in H.
  - injection H as <-. split; [intros []|intros (? & ? & [] & _)].
  - destruct (f x) as [ly|] eqn:Ex; [|discriminate].
    destruct (all_ok (map f l)) as [r'|] eqn:Er; [|discriminate]. injection H as <-. cbn.
    rewrite in_app_iff, (IH _ eq_refl). split.
    + intros [Hy|(x' & ly' & H1 & H2 & H3)]; [exists x, ly; split; [now left|auto]|].
      exists x', ly'. split; [now right|auto].
    + intros (x' & ly' & [<-|H1] & H2 & H3); [left; congruence|]. right. eauto.
Qed.

Lemma all_ok_each {A B} (f : A -> res B) : forall l r, all_ok (map f l) = Ok r ->
  Forall2 (fun x y => f x = Ok y) l r.
Proof.
  induction l as [|x l IH]; intros r H; cbn in H.
  - injection H as <-. constructor.
  - destruct (f x) as [ly|] eqn:Ex; [|discriminate].
    destruct (all_ok (map f l)) as [r'|] eqn:Er; [|discriminate]. injection H as <-.
    constructor; auto.
Qed.

(** ** Cells *)

Lemma table_entries_under {V} shared tables (dsets : list (path * (field V * attrs))) p e :
  In (p, e) (table_entries shared tables dsets) ->
  (exists x, In (p, x) dsets) /\ exists k l, In (k, l) tables /\ e = ETable l /\
     (shared = true \/ contains k (joined p) = true).
Proof.
  unfold table_entries. rewrite in_flat_map. intros ([k l] & Hk & H). cbn in H.
  apply in_flat_map in H as ([q x] & Hq & H). cbn in H.
  destruct (shared || contains k (joined q)) eqn:E; [|destruct H].
  destruct H as [H|[]]. injection H as <- <-. split; [eauto|]. exists k, l.
  split; [assumption|]. split; [reflexivity|]. now apply orb_true_iff in E.
Qed.

Lemma find_under {V} (n : node V) p l x : find_datasets p n = Ok l -> In x l -> exists q, fst x = p ++ q.
Proof.
  destruct x as [x [d a]]. intros H Hx. apply (find_datasets_spec _ _ _ H) in Hx as (q & -> & _). now exists q.
Qed.

Lemma copy_of_inv {V} (cells : tree V) name l : copy_of cells name = Ok l ->
  exists n, l = flatten ["Cells"%string; name] n /\
    (assoc name cells = Some n \/ exists t, assoc name cells = Some (NLink t (Some n))).
Proof.
  unfold copy_of. destruct (assoc name cells) as [[d a|a ks|t [m|]]|] eqn:E; try discriminate; intros H.
  - exists (NData d a). split; [congruence|now left].
  - exists (NGroup a ks). split; [congruence|now left].
  - exists m. split; [congruence|right; now exists t].
Qed.

Lemma copy_of_under {V} (cells : tree V) name l p e : copy_of cells name = Ok l -> In (p, e) l ->
  exists q, p = "Cells"%string :: name :: q.
Proof.
  intros H Hin. apply copy_of_inv in H as (n & -> & _).
  apply flatten_spec in Hin as (q & n' & -> & _). now exists q.
Qed.

Lemma sort_entry_path {V} s (pe : path * entry V) : fst (sort_entry s pe) = fst pe.
Proof. destruct pe as [p []]; reflexivity. Qed.

Lemma sorted_under {V} s (l : list (path * entry V)) p e : In (p, e) (map (sort_entry s) l) ->
  exists e', In (p, e') l.
Proof.
  intros H. apply in_map_iff in H as ([q x] & H1 & H2). exists x.
  pose proof (sort_entry_path s (q, x)) as E. rewrite H1 in E. cbn [fst] in E. now subst.
Qed.

Lemma cells_under {V} m (t : tree V) ce : cells_entries m t = Ok ce ->
  forall p e, In (p, e) ce -> exists q, p = "Cells"%string :: q.
Proof.
  unfold cells_entries. intros H p e Hin.
  destruct (kids_of _) as [cells|]; cbn [bind] in H; [|discriminate].
  set (off := match assoc "OffsetsInFile" cells with Some _ => "OffsetsInFile"%string | None => "Offsets"%string end) in *.
  destruct (match assoc "Counts" cells with Some n => find_datasets _ n | None => _ end) as [counts|] eqn:Ec;
    cbn [bind] in H; [|discriminate].
  destruct (match assoc off cells with Some n => find_datasets _ n | None => _ end) as [offsets|] eqn:Eo;
    cbn [bind] in H; [|discriminate].
  destruct (copy_of cells "Centres") as [centres|] eqn:E1; cbn [bind] in H; [|discriminate].
  destruct (copy_of cells "Meta-data") as [meta|] eqn:E2; cbn [bind] in H; [|discriminate].
  destruct (match assoc "MinPositions" cells with Some _ => _ | None => _ end) as [ext|] eqn:E3;
    cbn [bind] in H; [|discriminate].
  injection H as <-. cbn [app In] in Hin.
  destruct Hin as [Hin|[Hin|[Hin|Hin]]]; try (injection Hin as <- _; eexists; reflexivity).
  apply in_app_or in Hin as [Hin|Hin].
  { apply table_entries_under in Hin as [[x Hx] _].
    destruct (assoc "Counts" cells) as [n|]; [|discriminate].
    destruct (find_under _ _ _ _ Ec Hx) as [q Hq]. cbn [fst] in Hq. rewrite Hq. eexists. reflexivity. }
  apply in_app_or in Hin as [Hin|Hin].
  { apply table_entries_under in Hin as [[x Hx] _].
    destruct (assoc off cells) as [n|]; [|discriminate].
    destruct (find_under _ _ _ _ Eo Hx) as [q Hq]. cbn [fst] in Hq. rewrite Hq. eexists. reflexivity. }
  apply in_app_or in Hin as [Hin|Hin].
  { apply sorted_under in Hin as [e' Hin]. destruct (copy_of_under _ _ _ _ _ E1 Hin) as [q ->]. eexists. reflexivity. }
  apply in_app_or in Hin as [Hin|Hin].
  { destruct (copy_of_under _ _ _ _ _ E2 Hin) as [q ->]. eexists. reflexivity. }
  apply sorted_under in Hin as [e' Hin].
  destruct (assoc "MinPositions" cells); [|injection E3 as <-; destruct Hin].
  destruct (assoc "MaxPositions" cells); [|injection E3 as <-; destruct Hin].
  destruct (copy_of cells "MinPositions") as [mn|] eqn:E4; cbn [bind] in E3; [|discriminate].
  destruct (copy_of cells "MaxPositions") as [mx|] eqn:E5; cbn [bind] in E3; [|discriminate].
  injection E3 as <-. apply in_app_or in Hin as [Hin|Hin].
  - destruct (copy_of_under _ _ _ _ _ E4 Hin) as [q ->]. eexists. reflexivity.
  - destruct (copy_of_under _ _ _ _ _ E5 Hin) as [q ->]. eexists. reflexivity.
Qed.

(** ** Metadata *)

Lemma is_header_spec k : ((k =? "Header") || (k =? "Parameters"))%string = true <-> is_header k.
Proof. unfold is_header. rewrite orb_true_iff, !String.eqb_eq. reflexivity. Qed.

Lemma metadata_in {V} m (t : tree V) me : metadata_entries m t (map fst (find_links t)) = Ok me ->
  forall p e, In (p, e) me <->
    exists k n, In (k, n) t /\ plain_name t m k /\
      ((is_header k /\ p = [k] /\ exists a,
          all_ok (map (rewrite_attr m (header_count t) (output_type_of (node_attrs n))) (node_attrs n)) = Ok a /\
          e = EGroup a) \/
       (~ is_header k /\ exists q n', p = k :: q /\ stored n q n' /\ e = entry_of_node n')).
Proof.
  unfold metadata_entries. destruct (all_ok _) as [l|] eqn:El; cbn [bind]; [|discriminate].
  intros H. injection H as <-. intros p e. rewrite (all_ok_concat _ _ _ El). split.
  - intros ([k n] & ly & H1 & H2 & H3). exists k, n. split; [exact H1|]. cbn [metadata_entries_of] in H2.
    destruct (skips _ k) eqn:Ek; [injection H2 as <-; destruct H3|]. apply metadata_words_plain in Ek.
    split; [exact Ek|]. destruct ((k =? "Header") || (k =? "Parameters"))%string eqn:Eh.
    + left. split; [now apply is_header_spec|]. destruct (all_ok (map (rewrite_attr _ _ _) _)) as [a|] eqn:Ea; cbn [bind] in H2; [|discriminate].
      injection H2 as <-. destruct H3 as [H3|[]]. injection H3 as <- <-. eauto.
    + right. split; [rewrite <- is_header_spec; congruence|]. injection H2 as <-.
      apply flatten_spec in H3 as (q & n' & -> & Hs & ->). exists q, n'. auto.
  - intros (k & n & H1 & H2 & H3). apply metadata_words_plain in H2.
    destruct H3 as [(Hh & -> & a & Ha & ->)|(Hh & q & n' & -> & Hs & ->)].
    + exists (k, n), [([k], EGroup a)]. split; [exact H1|]. cbn [metadata_entries_of]. rewrite H2.
      apply is_header_spec in Hh. rewrite Hh, Ha. split; [reflexivity|now left].
    + exists (k, n), (flatten [k] n). split; [exact H1|]. cbn [metadata_entries_of]. rewrite H2.
      rewrite <- is_header_spec in Hh. apply not_true_is_false in Hh. rewrite Hh. split; [reflexivity|].
      apply flatten_spec. exists q, n'. auto.
Qed.

(** ** Datasets *)

Lemma in_list_spec s l : in_list s l = true <-> In s l.
Proof.
  unfold in_list. rewrite existsb_exists. split.
  - intros (x & H & E). apply String.eqb_eq in E. now subst.
  - intros H. exists s. split; [exact H|apply String.eqb_refl].
Qed.

Lemma dataset_mask_spec m p rs size : dataset_mask m p = Ok (Some (rs, size)) <-> mask_at m p rs size.
Proof.
  unfold dataset_mask, mask_at. destruct (tm_shared m) as [[rs' size']|].
  - split.
    + intros H. injection H as -> ->. now left.
    + intros [H|[H _]]; [injection H as -> ->; reflexivity|discriminate].
  - destruct (contains "PartType" (joined p)) eqn:E.
    + apply contains_spec in E. assert (Ho : occurs "PartType" (joined p)) by (split; [discriminate|exact E]).
      destruct p as [|k q].
      * split; [discriminate|]. intros [H|(_ & k & q & H & _)]; discriminate.
      * destruct (in_list k known_types) eqn:Ek.
        -- apply in_list_spec in Ek. split.
           ++ intros H. injection H as H. right. split; [reflexivity|]. exists k, q. auto.
           ++ intros [H|(_ & k' & q' & H & Ha & _)]; [discriminate|]. injection H as <- <-. now rewrite Ha.
        -- split; [discriminate|]. intros [H|(_ & k' & q' & H & Ha & Hk & _)]; [discriminate|].
           injection H as <- <-. apply in_list_spec in Hk. congruence.
    + split; [discriminate|]. intros [H|(_ & k' & q' & H & Ha & Hk & Ho)]; [discriminate|].
      destruct Ho as [_ Ho]. apply contains_spec in Ho. congruence.
Qed.

Lemma data_in {V} argsort m (t : tree V) ds de :
  find_datasets [] (NGroup [] t) = Ok ds -> data_entries argsort m (map fst (find_links t)) ds = Ok de ->
  forall p e, In (p, e) de <->
    exists d a d' mk, dataset_at t p d a /\ plain_path t p /\ fd_rows d <> [] /\
      dataset_mask m p = Ok (Some mk) /\ write_field argsort (Some mk) d = Ok d' /\ e = EData d' a.
Proof.
  intros Hds. unfold data_entries. destruct (all_ok _) as [l|] eqn:El; cbn [bind]; [|discriminate].
  intros H. injection H as <-. intros p e. rewrite (all_ok_concat _ _ _ El). split.
  - intros ([p' [d a]] & ly & H1 & H2 & H3). cbn [data_entry] in H2.
    apply (find_datasets_spec _ _ _ Hds) in H1 as (q & -> & H1). cbn [app] in *.
    destruct (skips _ (joined q)) eqn:Ek; [injection H2 as <-; destruct H3|]. apply data_words_plain in Ek.
    destruct (fd_rows d) as [|r0 rows] eqn:Er; [discriminate|].
    destruct (dataset_mask m q) as [[mk|]|] eqn:Em; cbn [bind] in H2; try discriminate.
    2:{ unfold write_field in H2. rewrite Er in H2. discriminate. }
    destruct (write_field argsort (Some mk) d) as [d'|] eqn:Ew; cbn [bind] in H2; [|discriminate].
    injection H2 as <-. destruct H3 as [H3|[]]. injection H3 as <- <-.
    exists d, a, d', mk. repeat split; auto; try apply Ek. rewrite Er. discriminate.
  - intros (d & a & d' & mk & H1 & H2 & H3 & H4 & H5 & ->).
    exists (p, (d, a)), [(p, EData d' a)]. split; [apply (find_datasets_spec _ _ _ Hds); exists p; auto|].
    split; [|now left]. cbn [data_entry]. apply data_words_plain in H2. rewrite H2, H4. cbn [bind].
    destruct (fd_rows d) eqn:Er; [congruence|]. now rewrite H5.
Qed.

Lemma data_all {V} argsort m (t : tree V) ds de :
  find_datasets [] (NGroup [] t) = Ok ds -> data_entries argsort m (map fst (find_links t)) ds = Ok de ->
  forall p d a, dataset_at t p d a -> plain_path t p -> exists e, In (p, e) de.
Proof.
  intros Hds Hde p d a Hp Hw.
  pose proof Hde as Hde'. unfold data_entries in Hde. destruct (all_ok _) as [l|] eqn:El; cbn [bind] in Hde; [|discriminate].
  injection Hde as <-.
  assert (Hin : In (p, (d, a)) ds) by (apply (find_datasets_spec _ _ _ Hds); exists p; auto).
  pose proof (all_ok_each _ _ _ El) as F.
  assert (exists ly, data_entry argsort m (data_words (map fst (find_links t))) (p, (d, a)) = Ok ly /\ In ly l) as (ly & Hly & Hll).
  { clear -F Hin. induction F as [|x y l1 l2 Hxy F IH]; [destruct Hin|].
    destruct Hin as [->|Hin]; [exists y; split; [assumption|now left]|].
    destruct (IH Hin) as (ly & H1 & H2). exists ly. split; [assumption|now right]. }
  cbn [data_entry] in Hly. apply data_words_plain in Hw. rewrite Hw in Hly.
  destruct (fd_rows d) eqn:Er; [discriminate|].
  destruct (dataset_mask m p) as [mk|]; cbn [bind] in Hly; [|discriminate].
  destruct (write_field argsort mk d) as [d'|]; cbn [bind] in Hly; [|discriminate].
  injection Hly as <-. exists (EData d' a). apply in_concat. exists [(p, EData d' a)]. split; [assumption|now left].
Qed.

(** ** The whole file *)

Lemma link_entries_in {V} (t : tree V) p e : In (p, e) (@link_entries V (find_links t)) <->
  exists k target, top_link t k target /\ p = [k] /\ e = ELink target.
Proof.
  unfold link_entries. rewrite in_map_iff. split.
  - intros ([k tg] & H & Hin). injection H as <- <-. exists k, tg. split; [now apply find_links_spec|auto].
  - intros (k & tg & H & -> & ->). exists (k, tg). split; [reflexivity|now apply find_links_spec].
Qed.

Record phases {V} (argsort : list Z -> list nat) (m : tmask) (t : tree V) (o : out V)
       (ce me de le : list (path * entry V)) (o1 o2 o3 : out V) : Prop := {
  ph_ce : cells_entries m t = Ok ce;
  ph_me : metadata_entries m t (map fst (find_links t)) = Ok me;
  ph_de : exists ds, find_datasets [] (NGroup [] t) = Ok ds /\ data_entries argsort m (map fst (find_links t)) ds = Ok de;
  ph_le : le = link_entries (find_links t);
  ph_1 : create_all [] ce = Ok o1;
  ph_2 : create_all o1 me = Ok o2;
  ph_3 : create_all o2 de = Ok o3;
  ph_4 : create_all o3 le = Ok o
}.

Lemma write_tree_phases {V} argsort m (t : tree V) o : write_tree argsort m t = Ok o ->
  exists ce me de le o1 o2 o3, phases argsort m t o ce me de le o1 o2 o3.
Proof.
  unfold write_tree. intros H.
  destruct (cells_entries m t) as [ce|] eqn:E1; cbn [bind] in H; [|discriminate].
  destruct (create_all [] ce) as [o1|] eqn:E2; cbn [bind] in H; [|discriminate].
  destruct (metadata_entries m t _) as [me|] eqn:E3; cbn [bind] in H; [|discriminate].
  destruct (create_all o1 me) as [o2|] eqn:E4; cbn [bind] in H; [|discriminate].
  destruct (find_datasets [] (NGroup [] t)) as [ds|] eqn:E5; cbn [bind] in H; [|discriminate].
  destruct (data_entries _ _ _ ds) as [de|] eqn:E6; cbn [bind] in H; [|discriminate].
  destruct (create_all o2 de) as [o3|] eqn:E7; cbn [bind] in H; [|discriminate].
  exists ce, me, de, (link_entries (find_links t)), o1, o2, o3. constructor; eauto.
Qed.

Section Phases.
Context {V : Type} {argsort : list Z -> list nat} {m : tmask} {t : tree V} {o : out V}
        {ce me de le : list (path * entry V)} {o1 o2 o3 : out V}.
Hypothesis P : phases argsort m t o ce me de le o1 o2 o3.

Lemma ph_keep_me p e : In (p, e) me -> at_path o p = Some e.
Proof.
  intros H. destruct P as [_ _ _ _ _ P2 P3 P4].
  destruct (create_all_spec _ _ _ P4) as (K & _). apply K. destruct (create_all_spec _ _ _ P3) as (K' & _). apply K'.
  destruct (create_all_spec _ _ _ P2) as (_ & K'' & _). auto.
Qed.

Lemma ph_keep_de p e : In (p, e) de -> at_path o p = Some e.
Proof.
  intros H. destruct P as [_ _ _ _ _ _ P3 P4].
  destruct (create_all_spec _ _ _ P4) as (K & _). apply K. destruct (create_all_spec _ _ _ P3) as (_ & K' & _). auto.
Qed.

Lemma ph_keep_le p e : In (p, e) le -> at_path o p = Some e.
Proof. intros H. destruct P as [_ _ _ _ _ _ _ P4]. destruct (create_all_spec _ _ _ P4) as (_ & K & _). auto. Qed.

Lemma ph_keep_ce p e : In (p, e) ce -> at_path o p = Some e.
Proof.
  intros H. destruct P as [_ _ _ _ P1 P2 P3 P4].
  destruct (create_all_spec _ _ _ P4) as (K & _). apply K. destruct (create_all_spec _ _ _ P3) as (K' & _). apply K'.
  destruct (create_all_spec _ _ _ P2) as (K'' & _). apply K''.
  destruct (create_all_spec _ _ _ P1) as (_ & K3 & _). auto.
Qed.

Lemma ph_from p e : at_path o p = Some e ->
  In (p, e) ce \/ In (p, e) me \/ In (p, e) de \/ In (p, e) le \/
  (e = EGroup [] /\ exists q x, (In (q, x) ce \/ In (q, x) me \/ In (q, x) de) /\ is_above p q).
Proof.
  intros H. destruct P as [_ _ _ Ple P1 P2 P3 P4].
  destruct (create_all_spec _ _ _ P4) as (_ & _ & K & _).
  destruct (K _ _ H) as [H1|[H1|(-> & q & x & H1 & H2)]]; [|auto|].
  2:{ exfalso. rewrite Ple in H1. apply link_entries_in in H1 as (k & tg & _ & -> & _).
      destruct H2 as (N & r & Nr & E). destruct p as [|? [|]]; [congruence| |discriminate].
      injection E as _ E. destruct r; [congruence|discriminate]. }
  destruct (create_all_spec _ _ _ P3) as (_ & _ & K3 & _).
  destruct (K3 _ _ H1) as [H2|[H2|(-> & q & x & H2 & H3)]]; [|auto|].
  2:{ do 4 right. split; [reflexivity|]. exists q, x. auto. }
  destruct (create_all_spec _ _ _ P2) as (_ & _ & K2 & _).
  destruct (K2 _ _ H2) as [H3|[H3|(-> & q & x & H3 & H4)]]; [|auto|].
  2:{ do 4 right. split; [reflexivity|]. exists q, x. auto. }
  destruct (create_all_spec _ _ _ P1) as (_ & _ & K1 & _).
  destruct (K1 _ _ H3) as [H4|[H4|(-> & q & x & H4 & H5)]]; [discriminate|auto|].
  do 4 right. split; [reflexivity|]. exists q, x. auto.
Qed.

(** Datasets are put beside what is there already, and not behind a link. *)
Lemma ph_de_fresh p e : In (p, e) de ->
  (forall x, ~ In (p, x) me) /\ forall q x, In (q, x) me -> is_above q p -> exists a, x = EGroup a.
Proof.
  intros H. destruct P as [_ _ _ _ _ P2 P3 _].
  destruct (create_all_spec _ _ _ P3) as (_ & _ & _ & K). destruct (K _ _ H) as [A B].
  destruct (create_all_spec _ _ _ P2) as (_ & K2 & _). split.
  - intros x Hx. rewrite (K2 _ _ Hx) in A. discriminate.
  - intros q x Hx Hq. destruct (B q Hq) as [C|[a C]]; rewrite (K2 _ _ Hx) in C; [discriminate|].
    injection C as ->. eauto.
Qed.

Lemma ph_le_fresh p e : In (p, e) le -> forall x, ~ In (p, x) me.
Proof.
  intros H x Hx. destruct P as [_ _ _ _ _ P2 P3 P4].
  destruct (create_all_spec _ _ _ P4) as (_ & _ & _ & K). destruct (K _ _ H) as [A _].
  destruct (create_all_spec _ _ _ P3) as (K3 & _). destruct (create_all_spec _ _ _ P2) as (_ & K2 & _).
  rewrite (K3 _ _ (K2 _ _ Hx)) in A. discriminate.
Qed.

End Phases.

(** A path that can be read is stored, or goes through a stored link. *)
Lemma leads_stored {V} (n : node V) p x : leads n p x ->
  stored n p x \/ exists q r tg dest, p = q ++ r /\ stored n q (NLink tg dest).
Proof.
  induction 1 as [d a|a ks|tg m p n _ _|a ks k m p n Hin _ IH].
  - left. constructor.
  - left. constructor.
  - right. exists [], p, tg, (Some m). split; [reflexivity|constructor].
  - destruct IH as [IH|(q & r & tg & dest & -> & IH)].
    + left. econstructor; eauto.
    + right. exists (k :: q), r, tg, dest. split; [reflexivity|]. econstructor; eauto.
Qed.

Lemma stored_prefix {V} (n : node V) : forall q r x, stored n (q ++ r) x -> exists y, stored n q y.
Proof.
  intros q. revert n. induction q as [|k q IH]; intros n r x H; [exists n; constructor|].
  cbn [app] in H. inversion H as [|a ks k' m p x' Hin Hs E1 E2 E3]; subst. destruct (IH _ _ _ Hs) as [y Hy]. exists y. econstructor; eauto.
Qed.

(** What the cell tables contain. *)
Lemma cells_in {V} m (t : tree V) ce a cells : cells_entries m t = Ok ce ->
  assoc "Cells"%string t = Some (NGroup a cells) ->
  let shared := match tm_shared m with Some _ => true | None => false end in
  let off := (match assoc "OffsetsInFile" cells with Some _ => "OffsetsInFile" | None => "Offsets" end)%string in
  (forall k l n q d x, In (k, l) (tm_counts m) -> assoc "Counts"%string cells = Some n -> leads n q (NData d x) ->
     shared = true \/ within k (joined ("Cells" :: "Counts" :: q)%string) ->
     In ("Cells" :: "Counts" :: q, ETable l)%string ce) /\
  (forall k l n q d x, In (k, l) (tm_offsets m) -> assoc off cells = Some n -> leads n q (NData d x) ->
     shared = true \/ within k (joined ("Cells" :: off :: q)%string) ->
     In ("Cells" :: off :: q, ETable l)%string ce) /\
  (forall d x, assoc "Centres"%string cells = Some (NData d x) ->
     In (["Cells"; "Centres"]%string, EData (sorted_field (tm_cell_sort m) d) x) ce) /\
  (forall n q n', assoc "Meta-data"%string cells = Some n -> (forall tg dest, n <> NLink tg dest) -> stored n q n' ->
     In ("Cells" :: "Meta-data" :: q, entry_of_node n')%string ce) /\
  (forall name n q d x, name = "MinPositions"%string \/ name = "MaxPositions"%string ->
     In "MinPositions"%string (map fst cells) -> In "MaxPositions"%string (map fst cells) ->
     assoc name cells = Some n -> (forall tg dest, n <> NLink tg dest) -> stored n q (NData d x) ->
     In ("Cells" :: name :: q, EData (sorted_field (tm_cell_sort m) d) x)%string ce).
Proof.
  intros H Hc. unfold cells_entries in H. rewrite Hc in H. cbn [kids_of bind] in H. intros shared off.
  fold shared in H. fold off in H.
  destruct (match assoc "Counts" cells with Some n => find_datasets _ n | None => _ end) as [counts|] eqn:Ec;
    cbn [bind] in H; [|discriminate].
  destruct (match assoc off cells with Some n => find_datasets _ n | None => _ end) as [offsets|] eqn:Eo;
    cbn [bind] in H; [|discriminate].
  destruct (copy_of cells "Centres") as [centres|] eqn:E1; cbn [bind] in H; [|discriminate].
  destruct (copy_of cells "Meta-data") as [meta|] eqn:E2; cbn [bind] in H; [|discriminate].
  destruct (match assoc "MinPositions" cells with Some _ => _ | None => _ end) as [ext|] eqn:E3;
    cbn [bind] in H; [|discriminate].
  injection H as <-.
  assert (Htab : forall tables (ds : list (path * (field V * attrs))) k l p x, In (k, l) tables -> In (p, x) ds -> shared = true \/ within k (joined p) ->
            In (p, ETable l) (table_entries shared tables ds)).
  { intros tables ds k l p x H1 H2 H3. unfold table_entries. apply in_flat_map. exists (k, l). split; [exact H1|].
    apply in_flat_map. exists (p, x). split; [exact H2|]. cbn [fst snd].
    assert (shared || contains k (joined p) = true) as ->; [|now left].
    apply orb_true_iff. destruct H3 as [H3|H3]; [now left|right]. now apply contains_spec. }
  assert (Hkeep : forall x, In x (table_entries shared (tm_counts m) counts) \/ In x (table_entries shared (tm_offsets m) offsets)
            \/ In x (map (sort_entry (tm_cell_sort m)) centres) \/ In x meta \/ In x (map (sort_entry (tm_cell_sort m)) ext) ->
            In x ([(["Cells"], EGroup []); (["Cells"; "Counts"], EGroup []); (["Cells"; off], EGroup [])]%string
      ++ table_entries shared (tm_counts m) counts
      ++ table_entries shared (tm_offsets m) offsets
      ++ map (sort_entry (tm_cell_sort m)) centres
      ++ meta
      ++ map (sort_entry (tm_cell_sort m)) ext)).
  { intros x Hx. rewrite !in_app_iff. tauto. }
  split; [|split; [|split; [|split]]].
  - intros k l n q d x H1 H2 H3 H4. apply Hkeep. left. rewrite H2 in Ec. apply (Htab _ _ k l _ (d, x)); auto.
    apply (find_datasets_spec _ _ _ Ec). now exists q.
  - intros k l n q d x H1 H2 H3 H4. apply Hkeep. right. left. rewrite H2 in Eo. apply (Htab _ _ k l _ (d, x)); auto.
    apply (find_datasets_spec _ _ _ Eo). now exists q.
  - intros d x H1. apply Hkeep. do 2 right. left. unfold copy_of in E1. rewrite H1 in E1. injection E1 as <-. now left.
  - intros n q n' H1 H2 H3. apply Hkeep. do 3 right. left. unfold copy_of in E2. rewrite H1 in E2.
    assert (meta = flatten ["Cells"; "Meta-data"]%string n) as ->.
    { destruct n as [| |tg dest]; [congruence..|]. exfalso. exact (H2 tg dest eq_refl). }
    apply flatten_spec. exists q, n'. auto.
  - intros name n q d x Hn Hi1 Hi2 H1 H2 H3. apply Hkeep. do 4 right.
    assert (Hcopy : copy_of cells name = Ok (flatten ["Cells"%string; name] n)).
    { unfold copy_of. rewrite H1. destruct n as [| |tg dest]; [reflexivity..|]. exfalso. exact (H2 tg dest eq_refl). }
    assert (Hin : In ("Cells"%string :: name :: q, EData (sorted_field (tm_cell_sort m) d) x)
                    (map (sort_entry (tm_cell_sort m)) (flatten ["Cells"%string; name] n))).
    { apply in_map_iff. exists ("Cells"%string :: name :: q, EData d x). split; [reflexivity|].
      apply flatten_spec. exists q, (NData d x). auto. }
    assert (assoc "MinPositions"%string cells <> None /\ assoc "MaxPositions"%string cells <> None) as [N1 N2].
    { assert (Hno : forall k, In k (map fst cells) -> assoc k cells <> None); [|auto].
      clear. intros k. induction cells as [|[k' n'] l IH]; intros Hi; [destruct Hi|]. cbn.
      destruct (String.eqb_spec k k') as [->|N]; [discriminate|]. destruct Hi as [E|Hi]; [cbn in E; congruence|auto]. }
    destruct (assoc "MinPositions" cells) eqn:A1; [|congruence]. destruct (assoc "MaxPositions" cells) eqn:A2; [|congruence].
    destruct (copy_of cells "MinPositions") as [mn|] eqn:C1; cbn [bind] in E3; [|discriminate].
    destruct (copy_of cells "MaxPositions") as [mx|] eqn:C2; cbn [bind] in E3; [|discriminate].
    injection E3 as <-. rewrite map_app. apply in_or_app. destruct Hn as [-> | ->].
    + left. rewrite C1 in Hcopy. injection Hcopy as ->. exact Hin.
    + right. rewrite C2 in Hcopy. injection Hcopy as ->. exact Hin.
Qed.

Lemma sorted_rows {V} sort (d : field V) : Forall (fun i => (i < length (fd_rows d))%nat) sort ->
  Forall2 (fun i r => nth_error (fd_rows d) i = Some r) sort (fd_rows (sorted_field sort d)).
Proof.
  cbn. induction 1 as [|i sort Hi _ IH]; cbn; [constructor|].
  destruct (nth_error (fd_rows d) i) as [r|] eqn:E; [|apply nth_error_None in E; lia].
  cbn. constructor; auto.
Qed.

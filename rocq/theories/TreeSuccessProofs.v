(** The writer succeeds on standard files. *)
From Coq Require Import String List ZArith Lia Bool Ascii.
From Verif Require Import Base BaseLemmas RangesModel RangesSpec ReaderModel ReaderSpec SubsetModel SubsetSpec
     SubsetProofs TreeModel TreeSpec TreeProofs TreeWriteProofs.
Import ListNotations.
Open Scope Z_scope.

(** * Pairs *)

Lemma FOP_app {A} (R : A -> A -> Prop) : forall l1 l2,
  ForallOrdPairs R l1 -> ForallOrdPairs R l2 -> (forall x y, In x l1 -> In y l2 -> R x y) ->
  ForallOrdPairs R (l1 ++ l2).
Proof.
  induction l1 as [|x l1 IH]; intros l2 H1 H2 H; [exact H2|]. inversion H1; subst. cbn. constructor.
  - apply Forall_app. split; [assumption|]. apply Forall_forall. intros y Hy. apply H; [now left|assumption].
  - apply IH; auto. intros a b Ha Hb. apply H; [now right|assumption].
Qed.

Lemma FOP_weaken {A} (R S : A -> A -> Prop) l : (forall x y, In x l -> In y l -> R x y -> S x y) ->
  ForallOrdPairs R l -> ForallOrdPairs S l.
Proof.
  intros H F. induction F as [|x l Fx F IH]; [constructor|]. constructor.
  - rewrite Forall_forall in *. intros y Hy. apply H; [now left|now right|auto].
  - apply IH. intros a b Ha Hb. apply H; now right.
Qed.

Lemma FOP_map {A B} (R : B -> B -> Prop) (f : A -> B) l :
  ForallOrdPairs (fun x y => R (f x) (f y)) l -> ForallOrdPairs R (map f l).
Proof.
  induction 1 as [|x l Fx F IH]; [constructor|]. cbn. constructor; [|assumption].
  now apply Forall_map.
Qed.

Lemma FOP_flat_map {A B} (R : B -> B -> Prop) (f : A -> list B) l :
  (forall x, In x l -> ForallOrdPairs R (f x)) ->
  ForallOrdPairs (fun x y => forall a b, In a (f x) -> In b (f y) -> R a b) l ->
  ForallOrdPairs R (flat_map f l).
Proof.
  intros H F. induction F as [|x l Fx F IH]; [constructor|]. cbn. apply FOP_app.
  - apply H. now left.
  - apply IH. intros y Hy. apply H. now right.
  - intros a b Ha Hb. apply in_flat_map in Hb as (y & Hy & Hb).
    rewrite Forall_forall in Fx. exact (Fx y Hy a b Ha Hb).
Qed.

Lemma FOP_in {A} (R : A -> A -> Prop) l x y : (forall a b, R a b -> R b a) ->
  ForallOrdPairs R l -> In x l -> In y l -> x = y \/ R x y.
Proof.
  intros Hs F. induction F as [|z l Fz F IH]; [intros []|]. rewrite Forall_forall in Fz.
  intros [->|Hx] [->|Hy]; auto.
Qed.

(** Neither path is the other one or above it. *)
Definition apart (p q : path) : Prop := p <> q /\ ~ is_above p q /\ ~ is_above q p.

Lemma apart_sym p q : apart p q -> apart q p.
Proof. intros (A & B & C). repeat split; auto. Qed.

Lemma app_split_neq (r : path) k q k' q' x : k <> k' -> r ++ k' :: q' <> (r ++ k :: q) ++ x.
Proof.
  intros N E. rewrite <- app_assoc in E. apply app_inv_head in E. injection E as E _. congruence.
Qed.

Lemma apart_split r k q k' q' : k <> k' -> apart (r ++ k :: q) (r ++ k' :: q').
Proof.
  intros N. repeat split.
  - intros E. apply app_inv_head in E. injection E as E _. congruence.
  - intros (_ & x & _ & E). exact (app_split_neq _ _ _ _ _ _ N E).
  - intros (_ & x & _ & E). exact (app_split_neq r k' q' k q x (not_eq_sym N) E).
Qed.

Lemma apart_compatible {V} p q (e e' : entry V) : apart p q -> compatible (p, e) (q, e').
Proof. intros (A & B & C). split; [exact A|]. split; [exact C|]. intros H. contradiction. Qed.

Lemma heads_compatible {V} k q (e : entry V) k' q' e' : k <> k' -> compatible (k :: q, e) (k' :: q', e').
Proof. intros N. apply apart_compatible. exact (apart_split [] k q k' q' N). Qed.

Lemma group_compatible {V} p r a (e : entry V) : r <> [] -> p <> [] -> compatible (p, EGroup a) (p ++ r, e).
Proof.
  intros N Np. split; [|split]; cbn [fst snd].
  - intros E. rewrite <- (app_nil_r p) in E at 1. apply app_inv_head in E. congruence.
  - intros (_ & x & Nx & E). rewrite <- (app_nil_r p) in E at 1. rewrite <- app_assoc in E.
    apply app_inv_head in E. destruct r; [congruence|discriminate].
  - eauto.
Qed.

(** * Trees *)

Lemma nodup_pairs {A} (ks : list (string * A)) : NoDup (map fst ks) ->
  ForallOrdPairs (fun a b => fst a <> fst b) ks.
Proof.
  induction ks as [|[k n] ks IH]; intros H; [constructor|]. inversion H; subst. constructor; [|auto].
  apply Forall_forall. intros [k' n'] Hin. cbn. intros ->. apply H2. apply in_map_iff. exists (k', n'). auto.
Qed.

Lemma find_apart {V} (n : node V) : uniquely_named n -> forall p l, find_datasets p n = Ok l ->
  ForallOrdPairs (fun x y => apart (fst x) (fst y)) l.
Proof.
  induction n as [d0 a0|t|t m IH|a0 ks IH] using node_induction; intros Hu p l H.
  - injection H as <-. repeat constructor.
  - discriminate.
  - inversion Hu; subst. exact (IH H1 _ _ H).
  - inversion Hu as [| | |a1 ks1 Hnd Hk E]; subst. rewrite find_datasets_group in H. clear Hu.
    revert l H. induction ks as [|[k m] ks IHk]; intros l H; cbn [find_kids] in H.
    + injection H as <-. constructor.
    + destruct (find_datasets (p ++ [k]) m) as [a|] eqn:Ea; cbn [bind] in H; [|discriminate].
      destruct (find_kids p ks) as [b|] eqn:Eb; cbn [bind] in H; [|discriminate]. injection H as <-.
      inversion Hnd as [|? ? Hk1 Hk2]; subst. apply FOP_app.
      * apply (IH k m (or_introl eq_refl) (Hk k m (or_introl eq_refl)) _ _ Ea).
      * apply IHk; auto.
        -- intros k' m' Hin. apply (IH k' m'). now right.
        -- intros k' m' Hin. apply (Hk k' m'). now right.
      * intros x y Hx Hy. destruct (find_under _ _ _ _ Ea Hx) as [q ->].
        apply (find_kids_in _ _ _ Eb) in Hy as (k' & m' & l' & H1 & H2 & H3).
        destruct (find_under _ _ _ _ H2 H3) as [q' ->]. rewrite <- !app_assoc. cbn [app].
        apply apart_split. intros ->. apply Hk1. apply in_map_iff. now exists (k', m').
Qed.

Lemma flatten_compatible {V} (n : node V) : uniquely_named n -> forall p, p <> [] ->
  ForallOrdPairs compatible (flatten p n).
Proof.
  induction n as [d0 a0|t|t m IH|a0 ks IH] using node_induction; intros Hu p Np.
  1-3: repeat constructor.
  rewrite flatten_group. inversion Hu as [| | |a1 ks1 Hnd Hk E]; subst. constructor.
  - apply Forall_forall. intros [q x] Hin. apply flatten_kids_in in Hin as (k & m & H1 & H2).
    apply flatten_spec in H2 as (r & n' & -> & _). rewrite <- app_assoc. now apply group_compatible.
  - clear Hu. induction ks as [|[k m] ks IHk]; cbn [flatten_kids]; [constructor|].
    inversion Hnd as [|? ? Hk1 Hk2]; subst. apply FOP_app.
    + apply (IH k m (or_introl eq_refl) (Hk k m (or_introl eq_refl))). destruct p; discriminate.
    + apply IHk; auto.
      * intros k' m' Hin. apply (IH k' m'). now right.
      * intros k' m' Hin. apply (Hk k' m'). now right.
    + intros [x ex] [y ey] Hx Hy. apply flatten_spec in Hx as (q & n' & -> & _).
      apply flatten_kids_in in Hy as (k' & m' & H1 & H2). apply flatten_spec in H2 as (q' & n'' & -> & _).
      rewrite <- !app_assoc. cbn [app]. apply apart_compatible, apart_split.
      intros ->. apply Hk1. apply in_map_iff. now exists (k', m').
Qed.

Lemma assoc_in {A} k (l : list (string * A)) a : assoc k l = Some a -> In (k, a) l.
Proof.
  induction l as [|[k' a'] l IH]; cbn; [discriminate|].
  destruct (String.eqb_spec k k') as [->|N]; [intros H; injection H as ->; now left|right; auto].
Qed.

Lemma assoc_unique {A} k (l : list (string * A)) a : NoDup (map fst l) -> In (k, a) l -> assoc k l = Some a.
Proof.
  induction l as [|[k' a'] l IH]; intros Hn Hin; [destruct Hin|]. inversion Hn; subst. cbn.
  destruct Hin as [E|Hin].
  - injection E as -> ->. now rewrite String.eqb_refl.
  - destruct (String.eqb_spec k k') as [->|N]; [|auto]. exfalso. apply H1. apply in_map_iff. now exists (k', a).
Qed.

Lemma assoc_none {A} k (l : list (string * A)) : assoc k l = None <-> ~ In k (map fst l).
Proof.
  induction l as [|[k' a'] l IH]; cbn; [tauto|]. destruct (String.eqb_spec k k') as [->|N].
  - split; [discriminate|]. intros H. exfalso. apply H. now left.
  - rewrite IH. split; [intros H [E|H']; [congruence|auto]|tauto].
Qed.

Lemma unique_kid {V} a k (ks : tree V) (n : node V) : uniquely_named (NGroup a ks) -> In (k, n) ks -> uniquely_named n.
Proof. intros H Hin. inversion H; eauto. Qed.

Lemma resolved_kid {V} a k (ks : tree V) (n : node V) : resolved (NGroup a ks) -> In (k, n) ks -> resolved n.
Proof. intros H Hin. inversion H; eauto. Qed.

(** * Cells *)

Lemma table_compatible {V} shared tables base (n : node V) ds :
  uniquely_named n -> find_datasets base n = Ok ds -> tables_apart shared tables base n ->
  ForallOrdPairs compatible (table_entries shared tables ds).
Proof.
  intros Hu Hds Ht. pose proof (find_apart n Hu _ _ Hds) as Ha.
  assert (Hone : forall kt : string * list Z, ForallOrdPairs compatible
     (flat_map (fun d => if shared || contains (fst kt) (joined (fst d)) then [(fst d, @ETable V (snd kt))] else []) ds)).
  { intros kt. apply FOP_flat_map.
    - intros x _. destruct (_ || _); repeat constructor.
    - apply (FOP_weaken (fun x y => apart (fst x) (fst y))); [|exact Ha].
      intros x y _ _ Hxy a b H1 H2. destruct (_ || _) in H1; [|destruct H1]. destruct (_ || _) in H2; [|destruct H2].
      destruct H1 as [<-|[]]. destruct H2 as [<-|[]]. now apply apart_compatible. }
  unfold table_entries. destruct Ht as [Hl|(Hs & Hf)].
  - destruct tables as [|x [|]]; cbn in Hl; [constructor| |lia]. cbn [flat_map]. rewrite app_nil_r. apply Hone.
  - apply FOP_flat_map; [auto|]. subst shared. apply (FOP_weaken _ _ _ (fun x y _ _ H => H)).
    eapply FOP_weaken; [|exact Hf]. intros s s' _ _ Hss a b H1 H2. cbn [orb] in *.
    apply in_flat_map in H1 as ([p [d1 a1]] & Hx & H1). cbn [fst snd] in H1.
    destruct (contains (fst s) (joined p)) eqn:C1; [|destruct H1]. destruct H1 as [<-|[]].
    apply in_flat_map in H2 as ([p' [d2 a2]] & Hy & H2). cbn [fst snd] in H2.
    destruct (contains (fst s') (joined p')) eqn:C2; [|destruct H2]. destruct H2 as [<-|[]].
    apply apart_compatible.
    destruct (FOP_in _ _ _ _ (fun x y H => apart_sym _ _ H) Ha Hx Hy) as [E|H]; [|exact H].
    injection E as <- <- <-. exfalso. apply (find_datasets_spec _ _ _ Hds) in Hx as (q & -> & Hq).
    apply contains_spec in C1. apply contains_spec in C2. exact (Hss _ _ _ Hq (conj C1 C2)).
Qed.

Lemma sort_compatible {V} s (x y : path * entry V) : compatible x y -> compatible (sort_entry s x) (sort_entry s y).
Proof.
  unfold compatible. rewrite !sort_entry_path. intros (A & B & C). split; [exact A|]. split; [exact B|].
  intros H. destruct (C H) as [a Ha]. destruct x as [p ex]. cbn in Ha. subst. exists a. reflexivity.
Qed.

Lemma sorted_compatible {V} s (l : list (path * entry V)) :
  ForallOrdPairs compatible l -> ForallOrdPairs compatible (map (sort_entry s) l).
Proof. intros H. apply FOP_map. eapply FOP_weaken; [|exact H]. intros x y _ _. apply sort_compatible. Qed.

Lemma copy_of_ok {V} (cells : tree V) name : In name (map fst cells) -> (forall k n, In (k, n) cells -> resolved n) ->
  exists l, copy_of cells name = Ok l.
Proof.
  intros Hin Hr. unfold copy_of. destruct (assoc name cells) as [n|] eqn:E; [|apply assoc_none in E; contradiction].
  apply assoc_in in E. apply Hr in E. destruct n as [d a|a ks|t [m|]]; try (eexists; reflexivity). inversion E.
Qed.

Lemma copy_of_compatible {V} (cells : tree V) name l : (forall k n, In (k, n) cells -> uniquely_named n) ->
  copy_of cells name = Ok l -> ForallOrdPairs compatible l.
Proof.
  intros Hu H. apply copy_of_inv in H as (n & -> & Hn). apply flatten_compatible; [|discriminate].
  destruct Hn as [Hn|[t Hn]]; apply assoc_in in Hn; apply Hu in Hn; [exact Hn|]. now inversion Hn.
Qed.

Lemma group_find_under {V} a (ks : tree V) p l x : find_datasets p (NGroup a ks) = Ok l -> In x l ->
  exists k q, fst x = p ++ k :: q.
Proof.
  destruct x as [x [d b]]. intros H Hx. apply (find_datasets_spec _ _ _ H) in Hx as (q & -> & Hq).
  apply leads_group_inv in Hq as [[_ Hq]|(k & m & r & _ & -> & _)]; [discriminate|]. now exists k, r.
Qed.

Ltac second_neq :=
  match goal with
  | |- compatible (?a :: ?k :: ?q, _) (?a :: ?k' :: ?q', _) =>
      apply apart_compatible; apply (apart_split [a] k q k' q'); discriminate
  end.

Lemma cells_ok {V} m (t : tree V) a cells :
  uniquely_named (NGroup [] t) -> resolved (NGroup [] t) -> In ("Cells"%string, NGroup a cells) t ->
  standard_cells m cells ->
  exists ce, cells_entries m t = Ok ce /\ ForallOrdPairs compatible ce.
Proof.
  intros Hu Hr Hc (Hcounts & Hoff & Hcen & Hmeta).
  assert (Huc : uniquely_named (NGroup a cells)) by (eapply unique_kid; eauto).
  assert (Hrc : resolved (NGroup a cells)) by (eapply resolved_kid; eauto).
  assert (Hkids : forall k n, In (k, n) cells -> uniquely_named n) by (intros; eapply unique_kid; eauto).
  assert (Hrk : forall k n, In (k, n) cells -> resolved n) by (intros; eapply resolved_kid; eauto).
  assert (Hnd : NoDup (map fst cells)) by (inversion Huc; assumption).
  assert (Hndt : NoDup (map fst t)) by (inversion Hu; assumption).
  unfold cells_entries. rewrite (assoc_unique _ _ _ Hndt Hc). cbn [kids_of bind].
  set (shared := match tm_shared m with Some _ => true | None => false end) in *.
  set (off := match assoc "OffsetsInFile" cells with Some _ => "OffsetsInFile"%string | None => "Offsets"%string end).
  destruct Hcounts as (a1 & ks1 & Hin1 & Ht1). destruct Hoff as (off' & a2 & ks2 & Hin2 & Ho & Ht2).
  assert (Eoff : off = off').
  { unfold off. destruct Ho as [->|[-> No]].
    - now rewrite (assoc_unique _ _ _ Hnd Hin2).
    - apply assoc_none in No. now rewrite No. }
  clearbody off. subst off'. rewrite (assoc_unique _ _ _ Hnd Hin1), (assoc_unique _ _ _ Hnd Hin2).
  destruct (find_datasets_resolved _ (Hrk _ _ Hin1) ["Cells"; "Counts"]%string) as [l1 Hl1].
  destruct (find_datasets_resolved _ (Hrk _ _ Hin2) ["Cells"%string; off]) as [l2 Hl2].
  rewrite Hl1, Hl2. cbn [bind].
  destruct (copy_of_ok cells _ Hcen Hrk) as [cen Ecen]. destruct (copy_of_ok cells _ Hmeta Hrk) as [met Emet].
  rewrite Ecen, Emet. cbn [bind].
  assert (exists ext, match assoc "MinPositions" cells, assoc "MaxPositions" cells with
                 | Some _, Some _ => bind (copy_of cells "MinPositions") (fun mn =>
                                     bind (copy_of cells "MaxPositions") (fun mx => Ok (mn ++ mx)))
                 | _, _ => Ok []
                 end = Ok ext /\ ForallOrdPairs compatible ext /\
                 forall p e, In (p, e) ext -> exists q, p = ("Cells" :: "MinPositions" :: q)%string \/
                                                    p = ("Cells" :: "MaxPositions" :: q)%string) as (ext & Eext & Fext & Uext).
  { assert (Hnil : exists ext, Ok [] = Ok ext /\ ForallOrdPairs compatible ext /\
                 forall p (e : entry V), In (p, e) ext -> exists q, p = ("Cells" :: "MinPositions" :: q)%string \/
                                                    p = ("Cells" :: "MaxPositions" :: q)%string)
      by (exists []; split; [reflexivity|split; [constructor|intros p e []]]).
    destruct (assoc "MinPositions" cells) as [n1|] eqn:E1; [|exact Hnil].
    destruct (assoc "MaxPositions" cells) as [n2|] eqn:E2; [|exact Hnil].
    destruct (copy_of_ok cells "MinPositions"%string) as [mn Emn]; auto.
    { apply assoc_in in E1. apply in_map_iff. now exists ("MinPositions"%string, n1). }
    destruct (copy_of_ok cells "MaxPositions"%string) as [mx Emx]; auto.
    { apply assoc_in in E2. apply in_map_iff. now exists ("MaxPositions"%string, n2). }
    rewrite Emn, Emx. cbn [bind]. exists (mn ++ mx). split; [reflexivity|]. split.
    - apply FOP_app; [eapply copy_of_compatible; eauto|eapply copy_of_compatible; eauto|].
      intros [p e] [p' e'] H1 H2. apply (copy_of_under _ _ _ _ _ Emn) in H1 as [q ->].
      apply (copy_of_under _ _ _ _ _ Emx) in H2 as [q' ->]. second_neq.
    - intros p e H. apply in_app_or in H as [H|H].
      + apply (copy_of_under _ _ _ _ _ Emn) in H as [q ->]. eauto.
      + apply (copy_of_under _ _ _ _ _ Emx) in H as [q ->]. eauto. }
  rewrite Eext. cbn [bind]. eexists. split; [reflexivity|].
  assert (Hoffn : off = "OffsetsInFile"%string \/ off = "Offsets"%string) by tauto.
  assert (U1 : forall p e, In (p, e) (table_entries shared (tm_counts m) l1) -> exists k q, p = ("Cells" :: "Counts" :: k :: q)%string).
  { intros p e H. apply table_entries_under in H as [[x Hx] _].
    destruct (group_find_under _ _ _ _ _ Hl1 Hx) as (k & q & E). cbn [fst app] in E. rewrite E. eauto. }
  assert (U2 : forall p e, In (p, e) (table_entries shared (tm_offsets m) l2) -> exists k q, p = ("Cells" :: off :: k :: q)%string).
  { intros p e H. apply table_entries_under in H as [[x Hx] _].
    destruct (group_find_under _ _ _ _ _ Hl2 Hx) as (k & q & E). cbn [fst app] in E. rewrite E. eauto. }
  assert (U3 : forall p e, In (p, e) (map (sort_entry (tm_cell_sort m)) cen) -> exists q, p = ("Cells" :: "Centres" :: q)%string).
  { intros p e H. apply sorted_under in H as [e' H]. exact (copy_of_under _ _ _ _ _ Ecen H). }
  assert (U4 : forall p e, In (p, e) met -> exists q, p = ("Cells" :: "Meta-data" :: q)%string).
  { intros p e H. exact (copy_of_under _ _ _ _ _ Emet H). }
  assert (U5 : forall p e, In (p, e) (map (sort_entry (tm_cell_sort m)) ext) ->
       exists q, p = ("Cells" :: "MinPositions" :: q)%string \/ p = ("Cells" :: "MaxPositions" :: q)%string).
  { intros p e H. apply sorted_under in H as [e' H]. exact (Uext _ _ H). }
  assert (F1 : ForallOrdPairs compatible (table_entries shared (tm_counts m) l1)).
  { eapply table_compatible; [|exact Hl1|exact Ht1]. eauto. }
  assert (F2 : ForallOrdPairs compatible (table_entries shared (tm_offsets m) l2)).
  { eapply table_compatible; [|exact Hl2|exact Ht2]. eauto. }
  assert (F3 : ForallOrdPairs compatible (map (sort_entry (tm_cell_sort m)) cen)).
  { apply sorted_compatible. eapply copy_of_compatible; eauto. }
  assert (F4 : ForallOrdPairs compatible met) by (eapply copy_of_compatible; eauto).
  assert (F5 : ForallOrdPairs compatible (map (sort_entry (tm_cell_sort m)) ext)) by (now apply sorted_compatible).
  remember (table_entries shared (tm_counts m) l1) as T1. remember (table_entries shared (tm_offsets m) l2) as T2.
  remember (map (sort_entry (tm_cell_sort m)) cen) as T3. remember (map (sort_entry (tm_cell_sort m)) ext) as T5.
  clear -Hoffn U1 U2 U3 U4 U5 F1 F2 F3 F4 F5.
  apply FOP_app; [| apply FOP_app; [exact F1| apply FOP_app; [exact F2| apply FOP_app; [exact F3| apply FOP_app; [exact F4|exact F5|]|]|]|]|].
  - assert (C0 : forall k q e, compatible (["Cells"%string], EGroup []) ("Cells"%string :: k :: q, e) (V:=V)).
    { intros k q e. apply (group_compatible ["Cells"%string] (k :: q)); discriminate. }
    apply FOP_cons; [apply Forall_cons; [apply C0|apply Forall_cons; [apply C0|apply Forall_nil]]|].
    apply FOP_cons; [apply Forall_cons; [|apply Forall_nil]|apply FOP_cons; [apply Forall_nil|apply FOP_nil]].
    destruct Hoffn as [-> | ->]; second_neq.
  - intros [p e] [p' e'] H1 H2. apply U4 in H1 as [q ->]. apply U5 in H2 as (q' & [->| ->]); second_neq.
  - intros [p e] [p' e'] H1 H2. apply U3 in H1 as [q ->]. apply in_app_or in H2 as [H2|H2].
    + apply U4 in H2 as [q' ->]. second_neq.
    + apply U5 in H2 as (q' & [->| ->]); second_neq.
  - intros [p e] [p' e'] H1 H2. apply U2 in H1 as (k & q & ->).
    apply in_app_or in H2 as [H2|H2]; [|apply in_app_or in H2 as [H2|H2]].
    + apply U3 in H2 as [q' ->]. destruct Hoffn as [-> | ->]; second_neq.
    + apply U4 in H2 as [q' ->]. destruct Hoffn as [-> | ->]; second_neq.
    + apply U5 in H2 as (q' & [->| ->]); destruct Hoffn as [-> | ->]; second_neq.
  - intros [p e] [p' e'] H1 H2. apply U1 in H1 as (k & q & ->).
    apply in_app_or in H2 as [H2|H2]; [|apply in_app_or in H2 as [H2|H2]; [|apply in_app_or in H2 as [H2|H2]]].
    + apply U2 in H2 as (k' & q' & ->). destruct Hoffn as [-> | ->]; second_neq.
    + apply U3 in H2 as [q' ->]. second_neq.
    + apply U4 in H2 as [q' ->]. second_neq.
    + apply U5 in H2 as (q' & [->| ->]); second_neq.
  - intros x [p' e'] H1 H2.
    assert (Hp' : exists k q, p' = "Cells"%string :: k :: q /\ ((k = "Counts"%string \/ k = off) -> q <> [])).
    { apply in_app_or in H2 as [H2|H2]; [|apply in_app_or in H2 as [H2|H2]; [|apply in_app_or in H2 as [H2|H2]; [|apply in_app_or in H2 as [H2|H2]]]].
      - apply U1 in H2 as (k' & q' & ->). eexists _, _. split; [reflexivity|discriminate].
      - apply U2 in H2 as (k' & q' & ->). eexists _, _. split; [reflexivity|discriminate].
      - apply U3 in H2 as [q' ->]. eexists _, _. split; [reflexivity|].
        intros [H|H]; [discriminate|]. destruct Hoffn as [E|E]; rewrite E in H; discriminate.
      - apply U4 in H2 as [q' ->]. eexists _, _. split; [reflexivity|].
        intros [H|H]; [discriminate|]. destruct Hoffn as [E|E]; rewrite E in H; discriminate.
      - apply U5 in H2 as (q' & [->| ->]); eexists _, _; (split; [reflexivity|]);
        (intros [H|H]; [discriminate|]); destruct Hoffn as [E|E]; rewrite E in H; discriminate. }
    destruct Hp' as (k & q & -> & Hq).
    assert (Hg : forall g, (g = "Counts"%string \/ g = off) -> compatible (["Cells"%string; g], EGroup []) ("Cells"%string :: k :: q, e')).
    { intros g Hg. destruct (string_dec g k) as [->|N].
      - apply (group_compatible ["Cells"%string; k] q); [auto|discriminate].
      - apply apart_compatible. exact (apart_split ["Cells"%string] g [] k q N). }
    cbn in H1. destruct H1 as [<-|[<-|[<-|[]]]].
    + apply (group_compatible ["Cells"%string] (k :: q)); discriminate.
    + apply Hg. now left.
    + apply Hg. now right.
Qed.

(** * Attributes *)

Lemma known_mask m k : In k known_types -> tm_shared m = None -> dataset_mask m [k] = Ok (assoc k (tm_types m)).
Proof.
  intros Hk Hs. unfold dataset_mask. rewrite Hs.
  assert (contains "PartType" (joined [k]) = true /\ in_list k known_types = true) as [-> ->]; [|reflexivity].
  cbn in Hk. repeat (destruct Hk as [<-|Hk]; [split; reflexivity|]). destruct Hk.
Qed.

Lemma new_count_spec m i old new : new_count m i old = Ok new <-> count_of m i old new.
Proof.
  unfold new_count, count_of. destruct (Z.eqb_spec old 0) as [->|N].
  - split; [intros H; injection H as <-; now left|]. intros [[_ ->]|[H _]]; [reflexivity|congruence].
  - destruct (tm_shared m) as [[rs size]|] eqn:Es.
    + assert (dataset_mask m = fun _ => Ok (Some (rs, size))) as Em by (unfold dataset_mask; now rewrite Es).
      destruct (nth_error known_types i) as [k|]; [rewrite Em|]; cbn [bind snd]; split.
      1,3: intros H; injection H as <-; right; split; [exact N|left; eauto].
      1,2: intros [[H _]|(_ & [[rs' H]|[H _]])]; [congruence|injection H as _ ->; reflexivity|discriminate].
    + destruct (nth_error known_types i) as [k|] eqn:Ek.
      * rewrite known_mask; [|eapply nth_error_In; eauto|assumption]. cbn [bind].
        destruct (assoc k (tm_types m)) as [[rs size]|] eqn:Ea; cbn [snd]; split.
        -- intros H. injection H as <-. right. split; [exact N|]. right. split; [reflexivity|]. exists k, rs. auto.
        -- intros [[H _]|(_ & [[rs' H]|(_ & k' & rs' & H1 & H2)])]; [congruence|discriminate|].
           injection H1 as <-. rewrite H2 in Ea. injection Ea as _ <-. reflexivity.
        -- discriminate.
        -- intros [[H _]|(_ & [[rs' H]|(_ & k' & rs' & H1 & H2)])]; [congruence|discriminate|].
           injection H1 as <-. congruence.
      * split; [discriminate|].
        intros [[H _]|(_ & [[rs' H]|(_ & k' & rs' & H1 & H2)])]; [congruence|discriminate|discriminate].
Qed.

Lemma new_counts_spec m : forall l i l', new_counts m i l = Ok l' <->
  length l' = length l /\
  forall j a b, nth_error l j = Some a -> nth_error l' j = Some b -> count_of m (i + j) a b.
Proof.
  induction l as [|c l IH]; intros i l'; cbn [new_counts].
  - split.
    + intros H. injection H as <-. split; [reflexivity|]. intros [|j] a b H; discriminate.
    + intros [H _]. destruct l'; [reflexivity|discriminate].
  - split.
    + destruct (new_count m i c) as [n|] eqn:En; cbn [bind]; [|discriminate].
      destruct (new_counts m (S i) l) as [ns|] eqn:Ens; cbn [bind]; [|discriminate].
      intros H. injection H as <-. apply IH in Ens as [L K]. split; [cbn; now rewrite L|].
      intros [|j] a b Ha Hb; cbn in Ha, Hb.
      * injection Ha as <-. injection Hb as <-. rewrite Nat.add_0_r. now apply new_count_spec.
      * rewrite <- Nat.add_succ_comm. eauto.
    + intros [L K]. destruct l' as [|n ns]; [discriminate|].
      pose proof (K 0%nat c n eq_refl eq_refl) as K0. rewrite Nat.add_0_r in K0. apply new_count_spec in K0.
      rewrite K0. cbn [bind].
      assert (new_counts m (S i) l = Ok ns) as ->; [|reflexivity].
      apply IH. split; [now injection L|]. intros j a b Ha Hb. rewrite Nat.add_succ_comm. now apply K.
Qed.

Lemma two_names s a b : ((s =? a) || (s =? b))%string = true <-> s = a \/ s = b.
Proof. rewrite orb_true_iff, !String.eqb_eq. reflexivity. Qed.

Lemma two_names_not s a b : ((s =? a) || (s =? b))%string = false <-> s <> a /\ s <> b.
Proof. rewrite orb_false_iff, !String.eqb_neq. reflexivity. Qed.

Lemma rewrite_attr_spec m h ot k v k' v' :
  rewrite_attr m h ot (k, v) = Ok (k', v') <-> k' = k /\ subset_value m h ot k v v'.
Proof.
  unfold rewrite_attr, subset_value.
  destruct (String.eqb_spec k "OutputType") as [->|N1].
  { destruct (subset_output_type ot) as [s|] eqn:Es; cbn [bind]; split.
    - intros H. injection H as <- <-. split; [reflexivity|]. left. eauto.
    - intros (-> & [(_ & s' & H & ->)|[(H & _)|[(H & _)|(H & _)]]]); try discriminate; [|congruence].
      injection H as ->. reflexivity.
    - discriminate.
    - intros (-> & [(_ & s' & H & ->)|[(H & _)|[(H & _)|(H & _)]]]); try discriminate. congruence. }
  destruct (String.eqb_spec k "NumPart_ThisFile") as [->|N2].
  { cbn [andb]. destruct ((ot =? "FullVolume") || (ot =? "VolumeSubset"))%string eqn:Eo.
    - apply two_names in Eo. destruct h as [[tx|l|z]|].
      + split; [discriminate|]. intros (_ & [(H & _)|[(_ & _ & o & nw & H & _)|[(H & _)|(_ & H & _)]]]); try discriminate.
        destruct (H eq_refl). destruct Eo; congruence.
      + destruct (new_counts m 0 l) as [l'|] eqn:El; cbn [bind]; split.
        * intros H. injection H as <- <-. split; [reflexivity|]. right. left. split; [reflexivity|].
          split; [exact Eo|]. exists l, l'. split; [reflexivity|]. split; [reflexivity|]. exact (proj1 (new_counts_spec m l 0 l') El).
        * intros (-> & [(H & _)|[(_ & _ & o & nw & H & -> & Hc)|[(H & _)|(_ & H & _)]]]); try discriminate.
          -- injection H as <-. pose proof (proj2 (new_counts_spec m l 0 nw) Hc). congruence.
          -- destruct (H eq_refl). destruct Eo; congruence.
        * discriminate.
        * intros (-> & [(H & _)|[(_ & _ & o & nw & H & -> & Hc)|[(H & _)|(_ & H & _)]]]); try discriminate.
          -- injection H as <-. pose proof (proj2 (new_counts_spec m l 0 nw) Hc). congruence.
          -- destruct (H eq_refl). destruct Eo; congruence.
      + split; [discriminate|]. intros (_ & [(H & _)|[(_ & _ & o & nw & H & _)|[(H & _)|(_ & H & _)]]]); try discriminate.
        destruct (H eq_refl). destruct Eo; congruence.
      + split; [discriminate|]. intros (_ & [(H & _)|[(_ & _ & o & nw & H & _)|[(H & _)|(_ & H & _)]]]); try discriminate.
        destruct (H eq_refl). destruct Eo; congruence.
    - apply two_names_not in Eo as [O1 O2]. cbn [String.eqb]. split.
      + intros H. cbn in H. injection H as <- <-. split; [reflexivity|]. do 3 right. repeat split; auto; discriminate.
      + intros (-> & [(H & _)|[(_ & [H|H] & _)|[(H & _)|(_ & _ & _ & ->)]]]); try discriminate; try congruence. reflexivity. }
  destruct (String.eqb_spec k "NumSubhalos_ThisFile") as [->|N3]; cbn [andb].
  { destruct ((ot =? "SOAP") || (ot =? "SOAPSubset"))%string eqn:Eo.
    - apply two_names in Eo. destruct (tm_shared m) as [[rs size]|]; cbn [snd]; split.
      + intros H. injection H as <- <-. split; [reflexivity|]. do 2 right. left. split; [reflexivity|]. split; [exact Eo|]. eauto.
      + intros (-> & [(H & _)|[(H & _)|[(_ & _ & rs' & sz & H & ->)|(_ & _ & H & _)]]]); try discriminate.
        * injection H as -> ->. reflexivity.
        * destruct (H eq_refl). destruct Eo; congruence.
      + discriminate.
      + intros (-> & [(H & _)|[(H & _)|[(_ & _ & rs' & sz & H & ->)|(_ & _ & H & _)]]]); try discriminate.
        destruct (H eq_refl). destruct Eo; congruence.
    - apply two_names_not in Eo as [O1 O2]. split.
      + intros H. injection H as <- <-. split; [reflexivity|]. do 3 right. repeat split; auto; discriminate.
      + intros (-> & [(H & _)|[(H & _)|[(_ & [H|H] & _)|(_ & _ & _ & ->)]]]); try discriminate; try congruence. }
  split.
  - intros H. injection H as <- <-. split; [reflexivity|]. do 3 right. repeat split; auto; intros; congruence.
  - intros (-> & [(H & _)|[(H & _)|[(H & _)|(_ & _ & _ & ->)]]]); try congruence.
Qed.

Lemma all_ok_exists {A B} (f : A -> res B) l : (forall x, In x l -> exists y, f x = Ok y) ->
  exists r, all_ok (map f l) = Ok r.
Proof.
  induction l as [|x l IH]; intros H; [now exists []|]. cbn.
  destruct (H x (or_introl eq_refl)) as [y Hy]. rewrite Hy.
  destruct IH as [r Hr]; [intros z Hz; apply H; now right|]. rewrite Hr. eauto.
Qed.

(** * Success *)

Lemma occurs_self k : k <> EmptyString -> occurs k k.
Proof.
  intros H. split; [exact H|]. exists EmptyString, EmptyString. cbn. induction k as [|c k IH]; [congruence|].
  cbn. f_equal. destruct k; [reflexivity|]. apply IH. discriminate.
Qed.

Lemma append_nil_r s : (s ++ "")%string = s.
Proof. induction s as [|c s IH]; [reflexivity|]. cbn. now rewrite IH. Qed.

Lemma append_assoc a b c : ((a ++ b) ++ c)%string = (a ++ (b ++ c))%string.
Proof. induction a as [|x a IH]; [reflexivity|]. cbn. now rewrite IH. Qed.

Lemma occurs_head k q : k <> EmptyString -> occurs k (joined (k :: q)).
Proof. intros H. split; [exact H|]. exists "/"%string, (joined q). reflexivity. Qed.

Lemma metadata_ok {V} m (t : tree V) : uniquely_named (NGroup [] t) ->
  (forall k n key v, In (k, n) t -> is_header k -> In (key, v) (node_attrs n) ->
     exists v', subset_value m (header_count t) (output_type_of (node_attrs n)) key v v') ->
  exists me, metadata_entries m t (map fst (find_links t)) = Ok me /\ ForallOrdPairs compatible me.
Proof.
  intros Hu St. assert (Hnd : NoDup (map fst t)) by (inversion Hu; assumption).
  unfold metadata_entries.
  destruct (all_ok_exists (metadata_entries_of m t (metadata_words (map fst (find_links t)) m)) t) as [r Hr].
  { intros [k n] Hin. cbn [metadata_entries_of]. destruct (skips _ k); [eauto|].
    destruct ((k =? "Header") || (k =? "Parameters"))%string eqn:Eh; [|eauto].
    apply is_header_spec in Eh.
    destruct (all_ok_exists (rewrite_attr m (header_count t) (output_type_of (node_attrs n))) (node_attrs n)) as [a Ha].
    - intros [key v] Hkv. destruct (St _ _ _ _ Hin Eh Hkv) as [v' Hv]. exists (key, v').
      now apply rewrite_attr_spec.
    - rewrite Ha. cbn [bind]. eauto. }
  rewrite Hr. cbn [bind]. exists (concat r). split; [reflexivity|].
  pose proof (all_ok_each _ _ _ Hr) as F.
  assert (Hchunk : forall k n l, In (k, n) t -> metadata_entries_of m t (metadata_words (map fst (find_links t)) m) (k, n) = Ok l ->
            ForallOrdPairs compatible l /\ forall p e, In (p, e) l -> exists q, p = k :: q).
  { intros k n l Hin H. cbn [metadata_entries_of] in H. destruct (skips _ k).
    - injection H as <-. split; [constructor|intros p e []].
    - destruct ((k =? "Header") || (k =? "Parameters"))%string.
      + destruct (all_ok _) as [a|] in H; cbn [bind] in H; [|discriminate]. injection H as <-. split; [repeat constructor|].
        intros p e [E|[]]. injection E as <- _. now exists [].
      + injection H as <-. split.
        * apply flatten_compatible; [|discriminate]. eapply unique_kid; [exact Hu|exact Hin].
        * intros p e Hp. apply flatten_spec in Hp as (q & n' & -> & _). now exists q. }
  clear Hr. remember (metadata_entries_of m t (metadata_words (map fst (find_links t)) m)) as f eqn:Ef.
  clear Ef. clear St Hu. revert r F. induction t as [|[k n] t' IH]; intros r F; inversion F as [|x l ts ls Hx F' E1 E2]; subst.
  - constructor.
  - cbn. inversion Hnd as [|? ? N1 N2]; subst. apply FOP_app.
    + exact (proj1 (Hchunk k n l (or_introl eq_refl) Hx)).
    + apply IH; auto. intros k' n' l' Hin. apply Hchunk. now right.
    + intros [p e] [p' e'] H1 H2. destruct (proj2 (Hchunk k n l (or_introl eq_refl) Hx) _ _ H1) as [q ->].
      apply in_concat in H2 as (l' & Hl' & H2).
      assert (exists k' n', In (k', n') t' /\ f (k', n') = Ok l') as (k' & n' & Hin & Hf).
      { clear -F' Hl'. induction F' as [|[k' n'] y ts ls Hxy F' IH]; [destruct Hl'|].
        destruct Hl' as [->|Hl']; [exists k', n'; split; [now left|assumption]|].
        destruct (IH Hl') as (k2 & n2 & A & B). exists k2, n2. split; [now right|assumption]. }
      destruct (proj2 (Hchunk k' n' l' (or_intror Hin) Hf) _ _ H2) as [q' ->].
      apply heads_compatible. intros ->. apply N1. apply in_map_iff. now exists (k', n').
Qed.

Lemma data_ok {V} argsort m (t : tree V) : is_argsort argsort -> standard m t ->
  exists ds de, find_datasets [] (NGroup [] t) = Ok ds /\
    data_entries argsort m (map fst (find_links t)) ds = Ok de /\ ForallOrdPairs compatible de.
Proof.
  intros Harg St. destruct (find_datasets_resolved _ (st_links _ _ St) []) as [ds Hds]. exists ds.
  unfold data_entries.
  destruct (all_ok_exists (data_entry argsort m (data_words (map fst (find_links t)))) ds) as [r Hr].
  { intros [p [d a]] Hin. apply (find_datasets_spec _ _ _ Hds) in Hin as (q & -> & Hq). cbn [app data_entry].
    destruct (skips _ (joined q)) eqn:Es; [eauto|]. apply data_words_plain in Es.
    destruct (st_data _ _ St _ _ _ Hq Es) as (Hne & (rs & size & Hm & ((n & Hf & Hb) & Ho & -> & Hl)) & _).
    destruct (fd_rows d) eqn:Er; [congruence|]. apply dataset_mask_spec in Hm. rewrite Hm. cbn [bind].
    destruct (write_field_ok argsort n d rs) as (d' & Hd & _); auto; [congruence|].
    rewrite Hd. cbn [bind]. eauto. }
  rewrite Hr. cbn [bind]. exists (concat r). split; [exact Hds|]. split; [reflexivity|].
  pose proof (all_ok_each _ _ _ Hr) as F. pose proof (find_apart _ (st_names _ _ St) _ _ Hds) as Ha.
  assert (Hchunk : forall (x : path * (field V * attrs)) l, data_entry argsort m (data_words (map fst (find_links t))) x = Ok l ->
            l = [] \/ exists e, l = [(fst x, e)]).
  { intros [p [d a]] l H. cbn [data_entry] in H. destruct (skips _ _); [injection H as <-; now left|].
    destruct (fd_rows d); [discriminate|]. destruct (dataset_mask m p); cbn [bind] in H; [|discriminate].
    destruct (write_field _ _ _); cbn [bind] in H; [|discriminate]. injection H as <-. right. eexists. reflexivity. }
  clear -F Ha Hchunk. revert Ha. induction F as [|x l ds r Hx F IH]; intros Ha; [constructor|].
  inversion Ha as [|? ? H1 H2]; subst. cbn. apply FOP_app; [|auto|].
  - destruct (Hchunk _ _ Hx) as [->|[e ->]]; repeat constructor.
  - intros a b Hin1 Hin2. destruct (Hchunk _ _ Hx) as [->|[e ->]]; [destruct Hin1|].
    destruct Hin1 as [<-|[]]. apply in_concat in Hin2 as (l' & Hl' & Hb).
    assert (exists y, In y ds /\ data_entry argsort m (data_words (map fst (find_links t))) y = Ok l') as (y & Hy & Hf).
    { clear -F Hl'. induction F as [|y l ds r Hxy F IH]; [destruct Hl'|].
      destruct Hl' as [->|Hl']; [exists y; split; [now left|assumption]|].
      destruct (IH Hl') as (z & A & B). exists z. split; [now right|assumption]. }
    destruct (Hchunk _ _ Hf) as [->|[e' ->]]; [destruct Hb|]. destruct Hb as [<-|[]].
    apply apart_compatible. rewrite Forall_forall in H1. auto.
Qed.

Lemma links_compatible {V} (t : tree V) : NoDup (map fst t) ->
  ForallOrdPairs compatible (@link_entries V (find_links t)).
Proof.
  intros H. unfold link_entries. apply FOP_map. unfold find_links. apply FOP_flat_map.
  - intros [k n] _. destruct n; repeat constructor.
  - eapply FOP_weaken; [|apply nodup_pairs; exact H]. intros [k n] [k' n'] _ _ N a b Ha Hb. cbn [fst] in N.
    destruct n; cbn in Ha; try contradiction. destruct Ha as [<-|[]].
    destruct n'; cbn in Hb; try contradiction. destruct Hb as [<-|[]]. cbn [fst]. now apply heads_compatible.
Qed.

Lemma standard_writes {V} argsort m (t : tree V) : is_argsort argsort -> standard m t ->
  exists o, write_tree argsort m t = Ok o.
Proof.
  intros Harg St. pose proof (st_names _ _ St) as Hu.
  assert (Hnd : NoDup (map fst t)) by (inversion Hu; assumption).
  destruct (st_cells _ _ St) as (a & cells & Hc & Hsc).
  destruct (cells_ok m t a cells Hu (st_links _ _ St) Hc Hsc) as (ce & Ece & Fce).
  destruct (metadata_ok m t Hu (st_header _ _ St)) as (me & Eme & Fme).
  destruct (data_ok argsort m t Harg St) as (ds & de & Eds & Ede & Fde).
  pose proof (links_compatible t Hnd) as Fle. set (le := link_entries (find_links t)) in *.
  assert (Hce : forall p e, In (p, e) ce -> exists q, p = "Cells"%string :: q) by (apply cells_under with (1 := Ece)).
  assert (Hme : forall p e, In (p, e) me -> exists k q, p = k :: q /\ plain_name t m k).
  { intros p e H. apply (metadata_in m t me Eme) in H as (k & n & _ & Hp & [(_ & -> & _)|(_ & q & n' & -> & _)]); eauto. }
  assert (Hde : forall p e, In (p, e) de -> exists k q, p = k :: q /\ plain_path t p /\ ~ plain_name t m k).
  { intros p e H. apply (data_in argsort m t ds de Eds Ede) in H as (d & b & d' & mk & H1 & H2 & _).
    destruct (st_data _ _ St _ _ _ H1 H2) as (_ & _ & H3). destruct p as [|k q].
    - exfalso. apply leads_group_inv in H1 as [[_ H1]|(? & ? & ? & _ & H1 & _)]; discriminate.
    - exists k, q. split; [reflexivity|]. split; [exact H2|eauto]. }
  assert (Hle : forall p e, In (p, e) le -> exists k tg, top_link t k tg /\ p = [k]).
  { intros p e H. apply link_entries_in in H as (k & tg & H1 & H2 & _). eauto. }
  assert (Hcells : forall tg, ~ top_link t "Cells"%string tg).
  { intros tg [dest H]. apply (assoc_unique _ _ _ Hnd) in H. apply (assoc_unique _ _ _ Hnd) in Hc. congruence. }
  assert (Full : ForallOrdPairs compatible (((ce ++ me) ++ de) ++ le)).
  { apply FOP_app; [apply FOP_app; [apply FOP_app|..]|..]; auto.
    - intros [p e] [p' e'] H1 H2. destruct (Hce _ _ H1) as [q ->]. destruct (Hme _ _ H2) as (k & q' & -> & Hp).
      apply heads_compatible. intros <-. destruct Hp as (_ & Hp & _). apply Hp. apply occurs_self. discriminate.
    - intros [p e] [p' e'] H1 H2. destruct (Hde _ _ H2) as (k & q' & -> & Hp & Hn). apply in_app_or in H1 as [H1|H1].
      + destruct (Hce _ _ H1) as [q ->]. apply heads_compatible. intros <-. destruct Hp as (_ & Hp & _). apply Hp.
        now apply occurs_head.
      + destruct (Hme _ _ H1) as (k' & q & -> & Hp'). apply heads_compatible. congruence.
    - intros [p e] [p' e'] H1 H2. destruct (Hle _ _ H2) as (k & tg & Hl & ->).
      pose proof (st_link_names _ _ St _ _ Hl) as Hne.
      apply in_app_or in H1 as [H1|H1]; [apply in_app_or in H1 as [H1|H1]|].
      + destruct (Hce _ _ H1) as [q ->]. apply heads_compatible. intros <-. exact (Hcells _ Hl).
      + destruct (Hme _ _ H1) as (k' & q & -> & Hp'). apply heads_compatible. intros ->.
        destruct Hp' as (Hp' & _). apply (Hp' _ _ Hl). now apply occurs_self.
      + destruct (Hde _ _ H1) as (k' & q & -> & Hp & _). apply heads_compatible. intros ->.
        destruct Hp as (Hp & _). apply (Hp _ _ Hl). now apply occurs_head. }
  destruct (create_all_ok (((ce ++ me) ++ de) ++ le) [] [] eq_refl Full) as [o Ho].
  exists o. rewrite !create_all_app in Ho. unfold write_tree. rewrite Ece. cbn [bind].
  destruct (create_all [] ce) as [o1|]; cbn [bind] in *; [|discriminate]. rewrite Eme. cbn [bind].
  destruct (create_all o1 me) as [o2|]; cbn [bind] in *; [|discriminate]. rewrite Eds. cbn [bind]. rewrite Ede. cbn [bind].
  destruct (create_all o2 de) as [o3|]; cbn [bind] in *; [|discriminate]. exact Ho.
Qed.

(** Proofs about the structure of subset files. *)
From Coq Require Import String List ZArith Lia Bool Ascii.
From Verif Require Import Base BaseLemmas RangesModel RangesSpec ReaderModel ReaderSpec SubsetModel SubsetSpec
     SubsetProofs TreeModel TreeSpec.
Import ListNotations.
Open Scope Z_scope.

(** * Text *)

Lemma prefix_spec : forall w s, String.prefix w s = true <-> exists b, s = (w ++ b)%string.
Proof.
  induction w as [|c w IH]; intros s.
  - split; [intros _; now exists s|destruct s; reflexivity].
  - destruct s as [|c' s]; cbn.
    + split; [discriminate|intros [b H]; discriminate].
    + destruct (ascii_dec c c') as [->|N].
      * rewrite IH. split; intros [b H]; exists b; [now rewrite H|now injection H].
      * split; [discriminate|]. intros [b H]. injection H as E _. congruence.
Qed.

Lemma contains_spec : forall s w, contains w s = true <-> exists a b, s = (a ++ w ++ b)%string.
Proof.
  induction s as [|c s IH]; intros w; cbn [contains]; rewrite orb_true_iff, prefix_spec.
  - split.
    + intros [[b H]|H]; [|discriminate]. now exists EmptyString, b.
    + intros (a & b & H). destruct a; [|discriminate]. left. now exists b.
  - rewrite IH. split.
    + intros [[b H]|(a & b & H)]; [now exists EmptyString, b|].
      exists (String c a), b. now rewrite H.
    + intros (a & b & H). destruct a as [|c' a]; [left; now exists b|].
      right. injection H as _ H. now exists a, b.
Qed.

Lemma skips_spec words s : skips words s = true <-> exists w, In w words /\ occurs w s.
Proof.
  unfold skips. rewrite existsb_exists. split; intros (w & H1 & H2); exists w; (split; [exact H1|]).
  - apply andb_true_iff in H2 as [H2 H3]. apply contains_spec in H2. split; [|exact H2].
    intros ->. discriminate.
  - destruct H2 as [N H2]. apply andb_true_iff. split; [now apply contains_spec|].
    destruct (String.eqb_spec w ""); [contradiction|reflexivity].
Qed.

Lemma skips_false words s : skips words s = false <-> forall w, In w words -> ~ occurs w s.
Proof.
  destruct (skips words s) eqn:E; split; try discriminate; try reflexivity.
  - apply skips_spec in E as (w & H1 & H2). intros H. exfalso. exact (H w H1 H2).
  - intros _ w Hw Ho. assert (skips words s = true) by (apply skips_spec; eauto). congruence.
Qed.

Lemma find_links_spec {V} (t : tree V) k target : In (k, target) (find_links t) <-> top_link t k target.
Proof.
  unfold find_links, top_link. rewrite in_flat_map. split.
  - intros ([k' n] & H1 & H2). destruct n; cbn in H2; try contradiction.
    destruct H2 as [H2|[]]. injection H2 as -> ->. eauto.
  - intros (dest & H). exists (k, NLink target dest). split; [exact H|]. now left.
Qed.

Lemma link_name {V} (t : tree V) k : In k (map fst (find_links t)) <-> exists target, top_link t k target.
Proof.
  rewrite in_map_iff. split.
  - intros ([k' tg] & <- & H). exists tg. now apply find_links_spec.
  - intros (tg & H). exists (k, tg). split; [reflexivity|now apply find_links_spec].
Qed.

Lemma data_words_plain {V} (t : tree V) p :
  skips (data_words (map fst (find_links t))) (joined p) = false <-> plain_path t p.
Proof.
  rewrite skips_false. unfold data_words, plain_path. split.
  - intros H. split; [|repeat split; apply H, in_or_app; right; cbn; auto].
    intros k tg Hk. apply H, in_or_app. left. apply link_name. eauto.
  - intros (H1 & H2 & H3 & H4) w Hw. apply in_app_or in Hw as [Hw|Hw].
    + apply link_name in Hw as [tg Hw]. eauto.
    + cbn in Hw. destruct Hw as [<-|[<-|[<-|[]]]]; assumption.
Qed.

Lemma first_part_spec g : forall w, first_of g w <-> first_part g = w.
Proof.
  induction g as [|c g IH]; intro w; cbn [first_part].
  - split.
    + intros (_ & [<-|(r & E)]); [reflexivity|]. destruct w; discriminate.
    + intros <-. split; [intros (a & b & E); destruct a; discriminate|now left].
  - destruct (Ascii.eqb c "/"%char) eqn:Ec.
    + apply Ascii.eqb_eq in Ec. subst c. split.
      * intros (N & [<-|(r & E)]); [destruct N; exists EmptyString, g; reflexivity|].
        destruct w as [|x w]; [reflexivity|]. injection E as <- _. destruct N. exists EmptyString, w. reflexivity.
      * intros <-. split; [intros (a & b & E); destruct a; discriminate|]. right. exists g. reflexivity.
    + apply Ascii.eqb_neq in Ec. split.
      * intros (N & H). destruct w as [|x w].
        { destruct H as [H|(r & H)]; [discriminate|]. injection H as H _. destruct (Ec H). }
        assert (x = c /\ first_of g w) as (-> & F).
        { split; [destruct H as [H|(r & H)]; injection H; auto|]. split.
          - intros (a & b & ->). apply N. exists (String x a), b. reflexivity.
          - destruct H as [H|(r & H)]; injection H as _ H; [now left|right; now exists r]. }
        apply IH in F. now rewrite F.
      * intros <-. destruct (proj2 (IH _) eq_refl) as (N & H). split.
        -- intros (a & b & E). destruct a as [|x a]; injection E as E1 E2; [destruct (Ec E1)|]. apply N. now exists a, b.
        -- destruct H as [H|(r & H)]; [left; now rewrite <- H|right; exists r]. cbn. f_equal. exact H.
Qed.

Lemma metadata_words_plain {V} (t : tree V) m k :
  skips (metadata_words (map fst (find_links t)) m) k = false <-> plain_name t m k.
Proof.
  rewrite skips_false. unfold metadata_words, plain_name. split.
  - intros H. repeat split.
    + intros l tg Hl. apply H, in_or_app. left. apply link_name. eauto.
    + apply H, in_or_app. right. now left.
    + intros g w Hg Hw. apply H, in_or_app. right. right. apply first_part_spec in Hw. subst w. apply in_map. exact Hg.
  - intros (H1 & H2 & H3) w Hw. apply in_app_or in Hw as [Hw|[<-|Hw]]; [|assumption|].
    + apply link_name in Hw as [tg Hw]. eauto.
    + apply in_map_iff in Hw as (g & <- & Hg). apply (H3 g); [exact Hg|]. now apply first_part_spec.
Qed.

(** * Trees *)

Section Induction.
Context {V : Type} (P : node V -> Prop).
Hypothesis Hdata : forall d a, P (NData d a).
Hypothesis Hnone : forall t, P (NLink t None).
Hypothesis Hlink : forall t m, P m -> P (NLink t (Some m)).
Hypothesis Hgroup : forall a ks, (forall k m, In (k, m) ks -> P m) -> P (NGroup a ks).

Fixpoint node_induction (n : node V) : P n :=
  match n with
  | NData d a => Hdata d a
  | NLink t None => Hnone t
  | NLink t (Some m) => Hlink t m (node_induction m)
  | NGroup a ks =>
      Hgroup a ks
        ((fix go (l : list (string * node V)) : forall k m, In (k, m) l -> P m :=
            match l return forall k m, In (k, m) l -> P m with
            | [] => fun k m H => match H with end
            | (k0, m0) :: l' =>
                fun k m H =>
                  match H with
                  | or_introl E => match (f_equal snd E) in _ = y return P y with eq_refl => node_induction m0 end
                  | or_intror H' => go l' k m H'
                  end
            end) ks)
  end.
End Induction.

(** The loops over the members of a group. *)
Fixpoint find_kids {V} (p : path) (ks : tree V) : res (list (path * (field V * attrs))) :=
  match ks with
  | [] => Ok []
  | (k, m) :: ks' => do a <- find_datasets (p ++ [k]) m; do b <- find_kids p ks'; Ok (a ++ b)
  end.

Lemma find_datasets_group {V} p a (ks : tree V) : find_datasets p (NGroup a ks) = find_kids p ks.
Proof. cbn. induction ks as [|[k m] ks IH]; [reflexivity|]. cbn. now rewrite IH. Qed.

Fixpoint flatten_kids {V} (p : path) (ks : tree V) : list (path * entry V) :=
  match ks with
  | [] => []
  | (k, m) :: ks' => flatten (p ++ [k]) m ++ flatten_kids p ks'
  end.

Lemma flatten_group {V} p a (ks : tree V) : flatten p (NGroup a ks) = (p, EGroup a) :: flatten_kids p ks.
Proof. cbn. f_equal. induction ks as [|[k m] ks IH]; [reflexivity|]. cbn. now rewrite IH. Qed.

Lemma find_kids_in {V} : forall (ks : tree V) p l, find_kids p ks = Ok l ->
  forall x, In x l <-> exists k m l', In (k, m) ks /\ find_datasets (p ++ [k]) m = Ok l' /\ In x l'.
Proof.
  induction ks as [|[k m] ks IH]; intros p l H x; cbn [find_kids] in H.
  - injection H as <-. split; [intros []|intros (? & ? & ? & [] & _)].
  - destruct (find_datasets (p ++ [k]) m) as [a|] eqn:Ea; cbn [bind] in H; [|discriminate].
    destruct (find_kids p ks) as [b|] eqn:Eb; cbn [bind] in H; [|discriminate]. injection H as <-.
    rewrite in_app_iff, (IH _ _ Eb). split.
    + intros [Hx|(k' & m' & l' & H1 & H2 & H3)].
      * exists k, m, a. split; [now left|auto].
      * exists k', m', l'. split; [now right|auto].
    + intros (k' & m' & l' & [E|H1] & H2 & H3).
      * injection E as <- <-. left. rewrite Ea in H2. injection H2 as <-. exact H3.
      * right. eauto 6.
Qed.

Lemma find_kids_ok {V} : forall (ks : tree V) p l, find_kids p ks = Ok l ->
  forall k m, In (k, m) ks -> exists l', find_datasets (p ++ [k]) m = Ok l'.
Proof.
  induction ks as [|[k m] ks IH]; intros p l H k' m' Hin; [destruct Hin|]. cbn [find_kids] in H.
  destruct (find_datasets (p ++ [k]) m) as [a|] eqn:Ea; cbn [bind] in H; [|discriminate].
  destruct (find_kids p ks) as [b|] eqn:Eb; cbn [bind] in H; [|discriminate].
  destruct Hin as [E|Hin]; [injection E as <- <-; eauto|eauto].
Qed.

Lemma leads_group_inv {V} a (ks : tree V) q n : leads (NGroup a ks) q n ->
  (q = [] /\ n = NGroup a ks) \/ exists k m r, In (k, m) ks /\ q = k :: r /\ leads m r n.
Proof. intros H. inversion H; subst; [left; auto|right; eauto 6]. Qed.

Lemma stored_group_inv {V} a (ks : tree V) q n : stored (NGroup a ks) q n ->
  (q = [] /\ n = NGroup a ks) \/ exists k m r, In (k, m) ks /\ q = k :: r /\ stored m r n.
Proof. intros H. inversion H; subst; [left; auto|right; eauto 6]. Qed.

Lemma find_datasets_spec {V} (n : node V) : forall p l, find_datasets p n = Ok l ->
  forall x d a, In (x, (d, a)) l <-> exists q, x = p ++ q /\ leads n q (NData d a).
Proof.
  induction n as [d0 a0|t|t m IH|a0 ks IH] using node_induction; intros p l H x d a.
  - cbn in H. injection H as <-. split.
    + intros [E|[]]. injection E as <- <- <-. exists []. split; [now rewrite app_nil_r|constructor].
    + intros (q & -> & Hq). inversion Hq; subst. left. now rewrite app_nil_r.
  - discriminate.
  - cbn in H. rewrite (IH _ _ H). split; intros (q & -> & Hq); exists q; (split; [reflexivity|]).
    + now constructor.
    + now inversion Hq.
  - rewrite find_datasets_group in H. rewrite (find_kids_in _ _ _ H). split.
    + intros (k & m & l' & H1 & H2 & H3). apply (IH _ _ H1 _ _ H2) in H3 as (q & -> & Hq).
      exists (k :: q). split; [now rewrite <- app_assoc|]. econstructor; eauto.
    + intros (q & -> & Hq). apply leads_group_inv in Hq as [[_ Hq]|(k & m & r & Hin & -> & Hq)]; [discriminate|].
      destruct (find_kids_ok _ _ _ H _ _ Hin) as [l' Hl]. exists k, m, l'.
      split; [assumption|]. split; [assumption|]. apply (IH _ _ Hin _ _ Hl). exists r.
      split; [now rewrite <- app_assoc|assumption].
Qed.

Lemma find_datasets_resolved {V} (n : node V) : resolved n -> forall p, exists l, find_datasets p n = Ok l.
Proof.
  induction n as [d0 a0|t|t m IH|a0 ks IH] using node_induction; intros Hr p.
  - eexists. reflexivity.
  - inversion Hr.
  - inversion Hr; subst. destruct (IH H0 p) as [l Hl]. exists l. exact Hl.
  - inversion Hr; subst. rewrite find_datasets_group. clear Hr. induction ks as [|[k m] ks IHk].
    + eexists. reflexivity.
    + cbn [find_kids]. destruct (IH k m (or_introl eq_refl) (H0 k m (or_introl eq_refl)) (p ++ [k])) as [a Ha].
      rewrite Ha. cbn [bind]. destruct IHk as [b Hb].
      * intros k' m' Hin. apply (IH k' m'). now right.
      * intros k' m' Hin. apply (H0 k' m'). now right.
      * rewrite Hb. eexists. reflexivity.
Qed.

Lemma find_datasets_ok_resolved {V} (n : node V) : forall p l, find_datasets p n = Ok l -> resolved n.
Proof.
  induction n as [d0 a0|t|t m IH|a0 ks IH] using node_induction; intros p l H.
  - constructor.
  - discriminate.
  - constructor. now apply (IH p l).
  - constructor. intros k m Hin. rewrite find_datasets_group in H.
    destruct (find_kids_ok _ _ _ H _ _ Hin) as [l' Hl]. eauto.
Qed.

Lemma flatten_kids_in {V} : forall (ks : tree V) p x,
  In x (flatten_kids p ks) <-> exists k m, In (k, m) ks /\ In x (flatten (p ++ [k]) m).
Proof.
  induction ks as [|[k m] ks IH]; intros p x; cbn [flatten_kids].
  - split; [intros []|intros (? & ? & [] & _)].
  - rewrite in_app_iff, IH. split.
    + intros [H|(k' & m' & H1 & H2)]; [exists k, m; split; [now left|auto]|].
      exists k', m'. split; [now right|auto].
    + intros (k' & m' & [E|H1] & H2); [injection E as <- <-; now left|]. right. eauto.
Qed.

Lemma flatten_spec {V} (n : node V) : forall p x e,
  In (x, e) (flatten p n) <-> exists q n', x = p ++ q /\ stored n q n' /\ e = entry_of_node n'.
Proof.
  induction n as [d0 a0|t|t m IH|a0 ks IH] using node_induction; intros p x e.
  - cbn. split.
    + intros [E|[]]. injection E as <- <-. exists [], (NData d0 a0). split; [now rewrite app_nil_r|split; constructor].
    + intros (q & n' & -> & Hs & ->). inversion Hs; subst. left. now rewrite app_nil_r.
  - cbn. split.
    + intros [E|[]]. injection E as <- <-. exists [], (NLink t None). split; [now rewrite app_nil_r|split; constructor].
    + intros (q & n' & -> & Hs & ->). inversion Hs; subst. left. now rewrite app_nil_r.
  - cbn. split.
    + intros [E|[]]. injection E as <- <-. exists [], (NLink t (Some m)). split; [now rewrite app_nil_r|split; constructor].
    + intros (q & n' & -> & Hs & ->). inversion Hs; subst. left. now rewrite app_nil_r.
  - rewrite flatten_group. cbn [In]. rewrite flatten_kids_in. split.
    + intros [E|(k & m & H1 & H2)].
      * injection E as <- <-. exists [], (NGroup a0 ks). split; [now rewrite app_nil_r|split; constructor].
      * apply (IH _ _ H1) in H2 as (q & n' & -> & Hs & ->). exists (k :: q), n'.
        split; [now rewrite <- app_assoc|]. split; [econstructor; eauto|reflexivity].
    + intros (q & n' & -> & Hs & ->). apply stored_group_inv in Hs as [[-> ->]|(k & m & r & Hin & -> & Hs)].
      * left. now rewrite app_nil_r.
      * right. exists k, m. split; [assumption|]. apply (IH _ _ Hin). exists r, n'.
        split; [now rewrite <- app_assoc|auto].
Qed.

(** * Making objects *)

Lemma in_above p q : In q (above p) <-> is_above q p.
Proof.
  unfold above, is_above. rewrite in_map_iff. split.
  - intros (n & <- & Hn). apply in_seq in Hn. split.
    + destruct p; [cbn in Hn; lia|]. destruct n; [lia|]. discriminate.
    + exists (skipn n p). split; [|symmetry; apply firstn_skipn].
      intros E. apply (f_equal (@length _)) in E. rewrite skipn_length in E. cbn in E. lia.
  - intros (N & r & Nr & ->). exists (length q). split.
    + now rewrite firstn_app, firstn_all, Nat.sub_diag, firstn_O, app_nil_r.
    + apply in_seq. rewrite app_length. destruct q; [congruence|]. destruct r; [congruence|]. cbn. lia.
Qed.

Lemma above_neq p : ~ is_above p p.
Proof.
  intros (_ & r & Nr & E). apply (f_equal (@length _)) in E. rewrite app_length in E.
  destruct r; [congruence|]. cbn in E. lia.
Qed.

Lemma above_trans p q r : is_above p q -> is_above q r -> is_above p r.
Proof.
  intros (N & x & Nx & ->) (N' & y & Ny & ->). split; [exact N|]. exists (x ++ y).
  split; [|now rewrite app_assoc]. destruct x; [congruence|discriminate].
Qed.

Lemma at_path_app {V} (o o' : out V) p :
  at_path (o ++ o') p = match at_path o p with Some e => Some e | None => at_path o' p end.
Proof.
  induction o as [|[q e] o IH]; [reflexivity|]. cbn. destruct (path_eq_dec p q); [reflexivity|apply IH].
Qed.

Lemma at_path_in {V} (o : out V) p e : at_path o p = Some e -> In (p, e) o.
Proof.
  induction o as [|[q e'] o IH]; cbn; [discriminate|].
  destruct (path_eq_dec p q) as [->|N]; [intros H; injection H as ->; now left|right; auto].
Qed.

Lemma at_path_groups {V} (l : list path) p :
  at_path (map (fun q => (q, @EGroup V [])) l) p = if in_dec path_eq_dec p l then Some (EGroup []) else None.
Proof.
  induction l as [|q l IH]; [reflexivity|]. cbn [map at_path].
  destruct (path_eq_dec p q) as [->|N].
  - destruct (in_dec path_eq_dec q (q :: l)) as [_|N]; [reflexivity|]. exfalso. apply N. now left.
  - rewrite IH. destruct (in_dec path_eq_dec p l) as [H|H], (in_dec path_eq_dec p (q :: l)) as [H'|H']; try reflexivity.
    + exfalso. apply H'. now right.
    + destruct H' as [E|H']; congruence.
Qed.

Lemma create_spec {V} (o o' : out V) p e : create o p e = Ok o' ->
  at_path o p = None /\
  (forall q, is_above q p -> at_path o q = None \/ exists a, at_path o q = Some (EGroup a)) /\
  forall q, at_path o' q =
    match at_path o q with
    | Some x => Some x
    | None => if in_dec path_eq_dec q (above p) then Some (EGroup [])
              else if path_eq_dec q p then Some e else None
    end.
Proof.
  unfold create. destruct (at_path o p) eqn:Ep; [discriminate|].
  destruct (forallb _ (above p)) eqn:Ef; [|discriminate]. intros H. injection H as <-.
  split; [reflexivity|]. split.
  - intros q Hq. apply in_above in Hq. rewrite forallb_forall in Ef. specialize (Ef q Hq).
    destruct (at_path o q) as [[]|]; try discriminate; eauto.
  - intros q. rewrite at_path_app. destruct (at_path o q) eqn:Eq; [reflexivity|].
    rewrite at_path_app, at_path_groups.
    destruct (in_dec path_eq_dec q (filter _ (above p))) as [Hi|Hi].
    + apply filter_In in Hi as [Hi _]. destruct (in_dec path_eq_dec q (above p)); [reflexivity|contradiction].
    + destruct (in_dec path_eq_dec q (above p)) as [Hj|Hj].
      * exfalso. apply Hi. apply filter_In. split; [exact Hj|]. now rewrite Eq.
      * cbn. reflexivity.
Qed.

Lemma create_all_spec {V} : forall l (o o' : out V), create_all o l = Ok o' ->
  (forall p e, at_path o p = Some e -> at_path o' p = Some e) /\
  (forall p e, In (p, e) l -> at_path o' p = Some e) /\
  (forall p e, at_path o' p = Some e ->
     at_path o p = Some e \/ In (p, e) l \/
     (e = EGroup [] /\ exists q x, In (q, x) l /\ is_above p q)) /\
  (forall p e, In (p, e) l -> at_path o p = None /\
     forall q, is_above q p -> at_path o q = None \/ exists a, at_path o q = Some (EGroup a)).
Proof.
  induction l as [|[p0 e0] l IH]; intros o o' H; cbn [create_all] in H.
  - injection H as <-. split; [auto|split; [intros p e []|split; [auto|intros p e []]]].
  - destruct (create o p0 e0) as [o1|] eqn:E1; cbn [bind] in H; [|discriminate].
    destruct (create_spec _ _ _ _ E1) as (Hn & Hg & Hl). destruct (IH _ _ H) as (K1 & K2 & K3 & K4).
    assert (Hp0 : at_path o1 p0 = Some e0).
    { rewrite Hl, Hn. destruct (in_dec path_eq_dec p0 (above p0)) as [Hi|_].
      - apply in_above in Hi. now apply above_neq in Hi.
      - destruct (path_eq_dec p0 p0); congruence. }
    split; [|split; [|split]].
    + intros p e Hp. apply K1. rewrite Hl, Hp. reflexivity.
    + intros p e [E|Hin]; [injection E as <- <-; now apply K1|now apply K2].
    + intros p e Hp. destruct (K3 p e Hp) as [H1|[H1|(-> & q & x & H1 & H2)]].
      * rewrite Hl in H1. destruct (at_path o p) eqn:Eo; [left; exact H1|].
        destruct (in_dec path_eq_dec p (above p0)) as [Hi|_].
        -- injection H1 as <-. right. right. split; [reflexivity|]. exists p0, e0.
           split; [now left|now apply in_above].
        -- destruct (path_eq_dec p p0) as [->|]; [|discriminate]. injection H1 as <-.
           right. left. now left.
      * right. left. now right.
      * right. right. split; [reflexivity|]. exists q, x. split; [now right|assumption].
    + intros p e [E|Hin]; [injection E as <- <-; split; assumption|].
      destruct (K4 p e Hin) as [A B]. split.
      * rewrite Hl in A. destruct (at_path o p); [discriminate|reflexivity].
      * intros q Hq. specialize (B q Hq). rewrite Hl in B. destruct (at_path o q); [|now left].
        destruct B as [B|B]; [discriminate|now right].
Qed.

Lemma create_all_app {V} : forall l1 l2 (o : out V),
  create_all o (l1 ++ l2) = bind (create_all o l1) (fun o' => create_all o' l2).
Proof.
  induction l1 as [|[q x] l1 IH]; intros l2 o; [reflexivity|]. cbn [app create_all].
  destruct (create o q x); cbn [bind]; [apply IH|reflexivity].
Qed.

(** Objects that can be made one after the other. *)
Definition compatible {V} (pe qe : path * entry V) : Prop :=
  fst pe <> fst qe /\ ~ is_above (fst qe) (fst pe) /\
  (is_above (fst pe) (fst qe) -> exists a, snd pe = EGroup a).

Lemma create_all_ok {V} : forall l (o : out V) done,
  create_all [] done = Ok o ->
  ForallOrdPairs compatible (done ++ l) -> exists o', create_all o l = Ok o'.
Proof.
  induction l as [|[p e] l IH]; intros o done Hd Hc; [exists o; reflexivity|].
  cbn [create_all].
  assert (Hpe : Forall (fun x => compatible x (p, e)) done).
  { clear -Hc. induction done as [|x done IHd]; constructor; inversion Hc; subst.
    - apply (proj1 (Forall_forall _ _) H1). apply in_or_app. right. now left.
    - now apply IHd. }
  destruct (create_all_spec _ _ _ Hd) as (_ & _ & K3 & _).
  assert (Hno : at_path o p = None).
  { destruct (at_path o p) as [x|] eqn:Ep; [|reflexivity]. exfalso.
    destruct (K3 _ _ Ep) as [H|[H|(_ & q & y & H & Ha)]].
    - discriminate.
    - apply (proj1 (Forall_forall _ _) Hpe) in H as (N & _). now apply N.
    - apply (proj1 (Forall_forall _ _) Hpe) in H as (_ & N & _). now apply N. }
  assert (Hab : forallb (fun q => match at_path o q with None | Some (EGroup _) => true | _ => false end) (above p) = true).
  { apply forallb_forall. intros q Hq. apply in_above in Hq.
    destruct (at_path o q) as [x|] eqn:Eq; [|reflexivity].
    destruct (K3 _ _ Eq) as [H|[H|(-> & _)]]; [discriminate| |reflexivity].
    apply (proj1 (Forall_forall _ _) Hpe) in H as (_ & _ & N). destruct (N Hq) as [a Ha]. cbn in Ha. now subst. }
  destruct (create o p e) as [o1|] eqn:E1.
  - cbn [bind]. apply (IH o1 (done ++ [(p, e)])).
    + rewrite create_all_app, Hd. cbn [bind create_all]. now rewrite E1.
    + rewrite <- app_assoc. exact Hc.
  - exfalso. unfold create in E1. rewrite Hno, Hab in E1. discriminate.
Qed.

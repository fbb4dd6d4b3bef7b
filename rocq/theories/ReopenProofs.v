(** What the metadata objects see of the files of the subset writer. *)
From Coq Require Import String Ascii List Arith Lia QArith ZArith Bool Sorting.Permutation.
From Verif Require Import Base BaseLemmas RangesModel ReaderModel SubsetModel NamesModel NamesProofs MetaModel MetaProofs MetaGroupProofs
  TreeModel TreeSpec TreeProofs TreeSuccessProofs ReopenModel ReopenSpec.
Import ListNotations.
Open Scope list_scope.

(** * Sorted names *)

Lemma name_leb_anti : forall x y, name_leb x y = true -> name_leb y x = true -> x = y.
Proof.
  induction x as [|a x IH]; intros [|b y] H G; try discriminate; [reflexivity|]. cbn [name_leb] in *.
  destruct (nat_of_ascii a <? nat_of_ascii b)%nat eqn:E1; destruct (nat_of_ascii b <? nat_of_ascii a)%nat eqn:E2; try discriminate.
  - apply Nat.ltb_lt in E1. apply Nat.ltb_lt in E2. lia.
  - apply Nat.ltb_ge in E1. apply Nat.ltb_ge in E2.
    assert (A : nat_of_ascii a = nat_of_ascii b) by lia. apply (f_equal ascii_of_nat) in A. rewrite !ascii_nat_embedding in A.
    subst b. f_equal. apply IH; assumption.
Qed.

Lemma insert_comm : forall x y l, insert x (insert y l) = insert y (insert x l).
Proof.
  intros x y. induction l as [|z l IH]; cbn [insert].
  - destruct (name_leb x y) eqn:E1; destruct (name_leb y x) eqn:E2; try reflexivity.
    + rewrite (name_leb_anti _ _ E1 E2). reflexivity.
    + apply name_leb_total in E1. congruence.
  - destruct (name_leb y z) eqn:Eyz; destruct (name_leb x z) eqn:Exz; cbn [insert].
    + destruct (name_leb x y) eqn:E1; destruct (name_leb y x) eqn:E2; rewrite ?Eyz, ?Exz; try reflexivity.
      * rewrite (name_leb_anti _ _ E1 E2). reflexivity.
      * apply name_leb_total in E1. congruence.
    + rewrite Eyz. destruct (name_leb x y) eqn:E1; [|rewrite Exz; reflexivity].
      rewrite (name_leb_trans _ _ _ E1 Eyz) in Exz. discriminate.
    + rewrite Exz. destruct (name_leb y x) eqn:E1; [|rewrite Eyz; reflexivity].
      rewrite (name_leb_trans _ _ _ E1 Exz) in Eyz. discriminate.
    + rewrite Eyz, Exz, IH. reflexivity.
Qed.

Lemma sorted_perm : forall l l', Permutation l l' -> sorted l = sorted l'.
Proof.
  intros l l' P. induction P as [|x l l' P IH|x y l|l l' l'' P1 IH1 P2 IH2]; cbn; [reflexivity| | |congruence].
  - unfold sorted in IH. rewrite IH. reflexivity.
  - apply insert_comm.
Qed.

Lemma sorted_same : forall l l', NoDup l -> NoDup l' -> (forall x, In x l <-> In x l') -> sorted l = sorted l'.
Proof. intros l l' N N' H. apply sorted_perm. apply NoDup_Permutation; assumption. Qed.

(** * Paths *)

Lemma txt_inj' : forall a b, txt a = txt b -> a = b.
Proof.
  intros a b H. rewrite <- (string_of_list_ascii_of_string a), <- (string_of_list_ascii_of_string b).
  unfold txt in H. rewrite H. reflexivity.
Qed.

Lemma rest_of_spec : forall p q r, rest_of p q = Some r <-> q = p ++ r.
Proof.
  induction p as [|a p IH]; intros q r; cbn [rest_of app].
  - split; congruence.
  - destruct q as [|b q]; [split; discriminate|]. destruct (string_dec a b) as [->|N].
    + rewrite IH. split; congruence.
    + split; [discriminate|]. intro E. injection E as E _. congruence.
Qed.

Lemma txt_app : forall a b, txt (a ++ b)%string = txt a ++ txt b.
Proof. unfold txt. induction a as [|c a IH]; intro b; [reflexivity|]. cbn. rewrite IH. reflexivity. Qed.

Lemma slash_in : forall k, In slash (txt k) -> exists a b, k = (a ++ "/" ++ b)%string.
Proof.
  intros k H. apply in_split in H. destruct H as (l1 & l2 & E).
  exists (string_of_list_ascii l1), (string_of_list_ascii l2). apply txt_inj'. rewrite E, !txt_app.
  unfold txt. rewrite !list_ascii_of_string_of_list_ascii. reflexivity.
Qed.

Lemma no_slash_split : forall (a b r s : name), ~ In slash a -> ~ In slash b ->
  a ++ slash :: r = b ++ slash :: s -> a = b /\ r = s.
Proof.
  induction a as [|c a IH]; intros [|d b] r s A B E; cbn in E.
  - injection E as <-. auto.
  - injection E as <- _. destruct B. left. reflexivity.
  - injection E as -> _. destruct A. left. reflexivity.
  - injection E as <- E. destruct (IH b r s) as (-> & ->); [intro; apply A; now right|intro; apply B; now right|exact E|].
    auto.
Qed.

Lemma path_name_inj : forall p q, p <> [] -> q <> [] -> slash_free p -> slash_free q -> path_name p = path_name q -> p = q.
Proof.
  induction p as [|a p IH]; intros [|b q] Np Nq Sp Sq E; try congruence.
  inversion Sp as [|? ? Ha Sp']; subst. inversion Sq as [|? ? Hb Sq']; subst.
  assert (Na : ~ In slash (txt a)) by (intro I; apply Ha; apply slash_in; exact I).
  assert (Nb : ~ In slash (txt b)) by (intro I; apply Hb; apply slash_in; exact I).
  destruct p as [|a' p], q as [|b' q].
  - cbn in E. apply txt_inj' in E. subst. reflexivity.
  - exfalso. change (txt a = txt b ++ slash :: path_name (b' :: q)) in E. apply Na. rewrite E. apply in_or_app. right. left. reflexivity.
  - exfalso. change (txt a ++ slash :: path_name (a' :: p) = txt b) in E. apply Nb. rewrite <- E. apply in_or_app. right. left. reflexivity.
  - change (txt a ++ slash :: path_name (a' :: p) = txt b ++ slash :: path_name (b' :: q)) in E.
    apply no_slash_split in E; [|assumption|assumption]. destruct E as (E1 & E2). apply txt_inj' in E1. subst b.
    f_equal. apply IH; try assumption; discriminate.
Qed.

Section View.
Context {V : Type}.
Variable raw : Z -> hval.
Variable texts : field V -> list name.
Variable matrix : field V -> list (list Q).
Variable numbers : field V -> list Q.
Variable first_number : field V -> Q.

Lemma at_path_some : forall (o : out V) q e, In (q, e) o -> exists e', at_path o q = Some e'.
Proof.
  induction o as [|[q' e'] o IH]; intros q e I; [destruct I|]. cbn [at_path].
  destruct (path_eq_dec q q') as [->|N]; [eauto|]. destruct I as [E|I]; [congruence|eauto].
Qed.

Lemma below_in : forall (o : out V) p k, In k (below o p) <-> exists key e, k = txt key /\ at_path o (p ++ [key]) = Some e.
Proof.
  intros o p k. unfold below. split.
  - intro I. apply (Permutation_in _ (proj2 (sorted_spec _))) in I. apply nodup_In in I. apply in_flat_map in I.
    destruct I as ([q e] & I & J). cbn [fst] in J. destruct (rest_of p q) as [[|key [|? ?]]|] eqn:R; try destruct J as [<-|[]]; try destruct J.
    apply rest_of_spec in R. subst q. destruct (at_path_some _ _ _ I) as (e' & A). eauto.
  - intros (key & e & -> & A). apply (Permutation_in _ (Permutation_sym (proj2 (sorted_spec _)))). apply nodup_In.
    apply in_flat_map. exists (p ++ [key], e). split; [apply at_path_in; exact A|]. cbn [fst].
    replace (rest_of p (p ++ [key])) with (Some [key]) by (symmetry; apply rest_of_spec; reflexivity). left. reflexivity.
Qed.

Lemma below_same : forall (o o' : out V) p,
  (forall key, (exists e, at_path o (p ++ [key]) = Some e) <-> (exists e, at_path o' (p ++ [key]) = Some e)) ->
  below o p = below o' p.
Proof.
  intros o o' p H.
  assert (E : forall x, In x (below o p) <-> In x (below o' p)).
  { intro x. rewrite !below_in. split; intros (key & e & -> & A);
      [destruct (proj1 (H key) (ex_intro _ e A)) as (e' & A')|destruct (proj2 (H key) (ex_intro _ e A)) as (e' & A')]; eauto. }
  unfold below in *. apply sorted_same; [apply NoDup_nodup|apply NoDup_nodup|].
  intro x. specialize (E x). split; intro I.
  - apply (Permutation_in _ (proj2 (sorted_spec _))). apply E. apply (Permutation_in _ (Permutation_sym (proj2 (sorted_spec _)))). exact I.
  - apply (Permutation_in _ (proj2 (sorted_spec _))). apply E. apply (Permutation_in _ (Permutation_sym (proj2 (sorted_spec _)))). exact I.
Qed.

Definition group_at (o : out V) (p : path) : option ginfo :=
  match at_path o p with
  | Some (EGroup a) => Some (mk_ginfo (dict_of raw a) (below o p))
  | _ => None
  end.

Lemma groups_get : forall (o : out V) p, proper_names o -> p <> [] -> slash_free p ->
  dict_get (groups_of raw o) (path_name p) = group_at o p.
Proof.
  intros o p P N S. unfold groups_of.
  assert (G : forall l, (forall q e, In (q, e) l -> In (q, e) o) ->
    dict_get (flat_map (fun qe => match at_path o (fst qe) with
                      | Some (EGroup a) => [(path_name (fst qe), mk_ginfo (dict_of raw a) (below o (fst qe)))]
                      | _ => [] end) l) (path_name p)
    = if in_dec path_eq_dec p (map fst l) then group_at o p else None).
  { induction l as [|[q e] l IH]; intro I; [reflexivity|]. cbn [flat_map]. rewrite dict_get_app, IH by (intros; apply I; right; assumption).
    clear IH. cbn [fst map].
    assert (H : dict_get (match at_path o q with
                      | Some (EGroup a) => [(path_name q, mk_ginfo (dict_of raw a) (below o q))]
                      | _ => [] end) (path_name p) = if path_eq_dec p q then group_at o p else None).
    { destruct (P q e (I q e (or_introl eq_refl))) as (Nq & Sq). unfold group_at.
      destruct (path_eq_dec p q) as [<-|D].
      - destruct (at_path o p) as [[]|]; try reflexivity. cbn [dict_get].
        rewrite (proj2 (name_eqb_iff (path_name p) (path_name p)) eq_refl). reflexivity.
      - destruct (at_path o q) as [[]|]; try reflexivity. cbn [dict_get].
        destruct (name_eqb (path_name q) (path_name p)) eqn:E; [|reflexivity]. apply name_eqb_iff in E.
        apply path_name_inj in E; try assumption. congruence. }
    rewrite H. destruct (in_dec path_eq_dec p (map fst l)) as [J|J]; destruct (path_eq_dec p q) as [E|E];
      destruct (in_dec path_eq_dec p (q :: map fst l)) as [K|K]; try reflexivity.
    all: try (destruct (group_at o p); reflexivity).
    all: exfalso; cbn in K; subst; intuition congruence. }
  rewrite (G o (fun _ _ x => x)). destruct (in_dec path_eq_dec p (map fst o)) as [I|I]; [reflexivity|].
  unfold group_at. destruct (at_path o p) as [e|] eqn:A; [|reflexivity]. exfalso. apply I. apply at_path_in in A.
  apply (in_map fst) in A. exact A.
Qed.

(** * Trees *)

Lemma stored_unique : forall (n : node V) p x, stored n p x -> uniquely_named n -> forall y, stored n p y -> x = y.
Proof.
  intros n p x S. induction S as [n|a ks k m p n I S IH]; intros U y T.
  - inversion T; subst; reflexivity.
  - inversion U as [| | |a1 ks1 ND UK]; subst. inversion T as [|a2 ks2 k2 m2 p2 n2 I2 T2]; subst.
    apply (assoc_unique _ _ _ ND) in I as E1. apply (assoc_unique _ _ _ ND) in I2 as E2. rewrite E1 in E2. injection E2 as <-.
    apply IH; [apply (UK k); exact I|exact T2].
Qed.

Lemma objects_in : forall (t : tree V) p e, In (p, e) (objects_of t) <-> p <> [] /\ exists n, stored (NGroup [] t) p n /\ e = entry_of_node n.
Proof.
  intros t p e. unfold objects_of. rewrite in_flat_map. split.
  - intros ([k m] & I & J). cbn [fst snd] in J. apply flatten_spec in J. destruct J as (q & n & -> & S & ->).
    split; [discriminate|]. exists n. split; [|reflexivity]. cbn [app]. econstructor; eassumption.
  - intros (N & n & S & ->). inversion S as [|a ks k m q n' I S']; subst; [congruence|].
    exists (k, m). split; [exact I|]. cbn [fst snd]. apply flatten_spec. exists q, n. auto.
Qed.

Lemma at_objects : forall (t : tree V) p e, uniquely_named (NGroup [] t) ->
  (at_path (objects_of t) p = Some e <-> p <> [] /\ exists n, stored (NGroup [] t) p n /\ e = entry_of_node n).
Proof.
  intros t p e U. split.
  - intro A. apply at_path_in in A. apply objects_in. exact A.
  - intros (N & n & S & ->). assert (I : In (p, entry_of_node n) (objects_of t)) by (apply objects_in; eauto).
    destruct (at_path_some _ _ _ I) as (e' & A). rewrite A. f_equal. apply at_path_in in A. apply objects_in in A.
    destruct A as (_ & n' & S' & ->). rewrite (stored_unique _ _ _ S U _ S'). reflexivity.
Qed.

Lemma leads_stored : forall (n : node V) p x q y, uniquely_named n -> stored n p x -> leads n (p ++ q) y -> leads x q y.
Proof.
  intros n p x q y U S. revert U. induction S as [n|a ks k m p n I S IH]; intros U L; [exact L|].
  inversion U as [| | |a1 ks1 ND UK]; subst. cbn [app] in L. apply leads_group_inv in L.
  destruct L as [(E & _)|(k2 & m2 & r & I2 & E & L)]; [discriminate|]. injection E as <- <-.
  apply (assoc_unique _ _ _ ND) in I as E1. apply (assoc_unique _ _ _ ND) in I2 as E2. rewrite E1 in E2. injection E2 as <-.
  apply IH; [apply (UK k); exact I|exact L].
Qed.

Lemma stored_leads : forall (n : node V) p x q y, stored n p x -> leads x q y -> leads n (p ++ q) y.
Proof. intros n p x q y S L. induction S as [n|a ks k m p n I S IH]; [exact L|]. cbn [app]. econstructor; [exact I|]. apply IH. exact L. Qed.

Lemma stored_stored : forall (n : node V) p x q y, stored n p x -> stored x q y -> stored n (p ++ q) y.
Proof. intros n p x q y S L. induction S as [n|a ks k m p n I S IH]; [exact L|]. cbn [app]. econstructor; [exact I|]. apply IH. exact L. Qed.

Lemma stored_split : forall (n : node V) p q y, stored n (p ++ q) y -> exists x, stored n p x /\ stored x q y.
Proof.
  intros n p. revert n. induction p as [|k p IH]; intros n q y S; [exists n; split; [constructor|exact S]|].
  cbn [app] in S. inversion S as [|a ks k' m q' n' I S']; subst. destruct (IH m q y S') as (x & A & B).
  exists x. split; [econstructor; eassumption|exact B].
Qed.

End View.

(** Property C107: a file of the writer can be read, with what has been given to the writer. *)
From Coq Require Import String Ascii List Arith ZArith QArith Qreals Reals Lia Bool Lra Sorting.Sorted Sorting.Permutation.
From Verif Require Import Base BaseLemmas NamesModel NamesProofs SubsetModel MetaModel MetaSpec MetaProofs MetaHeaderProofs MetaMapProofs MetaGroupProofs MetaTheorems
  CosmoModel CosmoSpec CosmoProofs CtorModel WriterModel WriterSpec WriterProofs WriterFileProofs WriterHistProofs WriterTheorems LabelModel LabelSpec LabelTheorems TripModel TripSpec.
Import ListNotations.
Open Scope list_scope.
Open Scope nat_scope.

Local Notation has := MetaSpec.has.
Local Notation lacks := MetaSpec.lacks.

(** * Dictionaries *)

Lemma name_eqb_refl : forall k, name_eqb k k = true.
Proof. intro k. now apply name_eqb_iff. Qed.

Lemma dict_get_in : forall A (l : list (name * A)) k v, NoDup (map fst l) -> (dict_get l k = Some v <-> In (k, v) l).
Proof.
  induction l as [|[k' w] t IH]; intros k v N; [split; [discriminate|intros []]|].
  inversion N as [|? ? N1 N2]; subst. cbn [dict_get]. destruct (dict_get t k) as [u|] eqn:E.
  - split.
    + intro H. injection H as ->. right. now apply IH.
    + intros [H|H]; [|apply IH in H; congruence]. injection H as -> ->. destruct N1. now apply dict_get_key in E.
  - destruct (name_eqb k' k) eqn:K.
    + apply name_eqb_iff in K. subst k'. split; [intro H; injection H as ->; now left|].
      intros [H|H]; [congruence|]. apply IH in H; [congruence|assumption].
    + split; [discriminate|]. intros [H|H]; [injection H as -> ->; rewrite name_eqb_refl in K; discriminate|].
      apply IH in H; [congruence|assumption].
Qed.

Lemma dict_get_not : forall A (l : list (name * A)) k, ~ In k (map fst l) -> dict_get l k = None.
Proof. intros A l k H. destruct (dict_get l k) eqn:E; [|reflexivity]. destruct H. now apply dict_get_key in E. Qed.

Lemma set_entry_keys : forall k v d n, In n (map fst (set_entry k v d)) <-> n = k \/ In n (map fst d).
Proof.
  intros k v d n. induction d as [|[n' w] d IH]; [cbn; intuition congruence|]. cbn [set_entry].
  destruct (name_eqb n' k) eqn:E; cbn [map fst In].
  - apply name_eqb_iff in E. subst n'. intuition congruence.
  - rewrite IH. intuition congruence.
Qed.

Lemma set_entry_unique : forall k v d, NoDup (map fst d) -> NoDup (map fst (set_entry k v d)).
Proof.
  intros k v d. induction d as [|[n w] d IH]; intro N; [repeat constructor; auto|]. inversion N as [|? ? N1 N2]; subst.
  cbn [set_entry]. destruct (name_eqb n k) eqn:E; cbn [map fst]; constructor; auto.
  intro H. apply set_entry_keys in H. destruct H as [->|H]; [|contradiction]. rewrite name_eqb_refl in E. discriminate.
Qed.

Lemma set_entry_get : forall k v d k', NoDup (map fst d) ->
  dict_get (set_entry k v d) k' = if name_eqb k k' then Some v else dict_get d k'.
Proof.
  intros k v d k'. induction d as [|[n w] d IH]; intro N; [reflexivity|]. inversion N as [|? ? N1 N2]; subst.
  cbn [set_entry]. destruct (name_eqb n k) eqn:E; cbn [dict_get].
  - apply name_eqb_iff in E. subst n. destruct (name_eqb k k') eqn:K.
    + apply name_eqb_iff in K. subst k'. now rewrite (dict_get_not _ d k N1).
    + destruct (dict_get d k'); reflexivity.
  - rewrite (IH N2). destruct (name_eqb k k') eqn:K; [reflexivity|]. destruct (dict_get d k'); reflexivity.
Qed.

Lemma merged_get : forall extra d k, NoDup (map fst d) ->
  dict_get (merged d extra) k = match dict_get extra k with Some v => Some v | None => dict_get d k end.
Proof.
  unfold merged. induction extra as [|[n v] e IH]; intros d k N; [reflexivity|]. cbn [fold_left fst snd dict_get].
  rewrite IH by now apply set_entry_unique. destruct (dict_get e k); [reflexivity|].
  rewrite set_entry_get by assumption. destruct (name_eqb n k); reflexivity.
Qed.

(** * Files of the writer *)

Lemma part_type_inj : forall s t, part_type s = part_type t -> s = t.
Proof.
  intros s t E. apply (type_group_inj s t (part_type s)); apply type_group_iff; [reflexivity|exact E].
Qed.

Lemma numeral_digits : forall i s, numeral i s -> Forall (fun c => c <> slash) s.
Proof.
  assert (D : forall d, d < 10 -> ascii_of_nat (48 + d) <> slash).
  { intros d H. do 10 (destruct d as [|d]; [vm_compute; discriminate|]). lia. }
  induction 1 as [d L|q s d P L N IH]; [repeat constructor; auto|]. apply Forall_app. split; [exact IH|]. repeat constructor. auto.
Qed.

Lemma part_type_no_slash : forall t, ~ In slash (part_type t).
Proof.
  intros t H. unfold part_type in H. apply in_app_or in H. destruct H as [H|H].
  - cbn in H. intuition discriminate.
  - pose proof (numeral_digits t (decimal t) (decimal_numeral t)) as F. rewrite Forall_forall in F. now apply (F slash).
Qed.

Record fine_file (f : file) : Prop := mk_fine {
  ff_sorted : StronglySorted lt (map fst (f_groups f));
  ff_length : length (f_counts f) = 8;
  ff_small : forall t, In t (map fst (f_groups f)) -> t < 8;
  ff_in : forall t, In t (map fst (f_groups f)) -> exists n, nth_error (f_counts f) t = Some n /\ (0 < n)%Z;
  ff_out : forall t, t < 8 -> ~ In t (map fst (f_groups f)) -> nth_error (f_counts f) t = Some 0%Z;
  ff_fields : forall t g, In (t, g) (f_groups f) -> NoDup (map fst g) /\ forall name, In name (map fst g) <-> must_have t name;
  ff_masses : length (f_masses f) = 8
}.

Lemma all_ok_length : forall A (l : list (res A)) r, all_ok l = Ok r -> length r = length l.
Proof.
  induction l as [|x l IH]; intros r H; cbn [all_ok] in H; [injection H as <-; reflexivity|].
  destruct x; [|discriminate]. destruct (all_ok l) as [r'|]; [|discriminate].
  injection H as <-. cbn. f_equal. now apply IH.
Qed.

Lemma written_fine : forall fz l i w st' f,
  Forall op_shaped l -> nth_error (writers (wrun fz init l)) i = Some w ->
  write fz (wrun fz init l) i = (st', Written f) -> fine_file f.
Proof.
  intros fz l i w st' f Hl Hw H.
  destruct (C31_type_order fz l i w st' f Hl Hw H) as (S1 & S2).
  destruct (C54_header_counts fz l i w st' f Hl Hw H) as (C1 & C2 & C3).
  pose proof (C54_fields_of_groups fz l i w st' f Hl Hw H) as F.
  assert (P : forall t, In t ptypes <-> t < 8) by (intro t; unfold ptypes; rewrite in_seq; lia).
  destruct (reachable fz l Hl) as (Hok & Hs).
  assert (L : length (f_counts f) = 8 /\ length (f_masses f) = 8).
  { destruct (write_cases _ _ _ _ _ _ Hok Hs Hw H) as [(e & Hc & _) | (w' & names & gen & Ho & Hf)]; [discriminate|].
    symmetry in Hf. unfold write_file in Hf. destruct (all_ok _) as [ms|] eqn:M; [|discriminate].
    destruct (write_groups _ _ _ _) as [gs|]; [|discriminate]. injection Hf as <-. cbn [f_counts f_masses].
    apply all_ok_length in M. rewrite M, !map_length. split; reflexivity. }
  constructor; try tauto.
  - intros t Ht. apply P. now apply S2.
  - intros t Ht. apply in_map_iff in Ht. destruct Ht as ((t', g) & E & Ht). cbn in E. subst t'.
    assert (I : In "masses"%string (map fst g)) by (apply (F t g Ht); left; cbn; auto).
    apply in_map_iff in I. destruct I as ((n, d) & E & I). cbn in E. subst n.
    destruct (C1 t g _ d Ht I) as (n & tl & _ & N & Z). eauto.
  - intros t Ht No. apply C3; [now apply P|exact No].
Qed.

Section File.
Variables (num : R -> Q) (extra : dict) (f : file).
Hypothesis ok : fine_file f.

Lemma types_differ : NoDup (map fst (f_groups f)).
Proof.
  pose proof (ff_sorted f ok) as S. induction S as [|x l S IH F]; constructor; auto.
  intro H. rewrite Forall_forall in F. specialize (F x H). lia.
Qed.

Lemma keys_differ : NoDup (map fst (mf_groups (hdf num extra f))).
Proof.
  cbn [hdf mf_groups map fst]. rewrite map_map. cbn [type_entry fst].
  assert (E : map (fun x : nat * list (string * dset) => part_type (fst x)) (f_groups f) = map part_type (map fst (f_groups f)))
    by now rewrite map_map.
  rewrite E. clear E.
  constructor; [|constructor].
  - cbn [In]. intros [H|H]; [discriminate|]. apply in_map_iff in H. destruct H as (t & H & _). discriminate.
  - intro H. apply in_map_iff in H. destruct H as (t & H & _). discriminate.
  - pose proof types_differ as N. induction N as [|t l Ht N IH]; cbn [map]; constructor; auto.
    intro H. apply in_map_iff in H. destruct H as (s & E & H). apply part_type_inj in E. now subst s.
Qed.

Lemma header_found : header_is (hdf num extra f) (merged (standard_header num f) extra).
Proof.
  eexists. split; [apply dict_get_in; [exact keys_differ|left; reflexivity]|reflexivity].
Qed.

Lemma group_found : forall g gi, dict_get (mf_groups (hdf num extra f)) g = Some gi <->
  (g = txt "Header" /\ gi = mk_ginfo (merged (standard_header num f) extra) [])
  \/ (g = txt "Units" /\ gi = mk_ginfo (unit_attributes num (f_units f)) [])
  \/ exists t fs, In (t, fs) (f_groups f) /\ (g, gi) = type_entry (t, fs).
Proof.
  intros g gi. rewrite dict_get_in by exact keys_differ. cbn [hdf mf_groups In]. rewrite in_map_iff. split.
  - intros [H|[H|((t, fs) & E & H)]]; [left|right; left|right; right; eauto]; (injection H as <- <-; auto).
  - intros [(-> & ->)|[(-> & ->)|(t & fs & H & E)]]; [now left|right; now left|right; right; eauto].
Qed.

Lemma entry_unique : NoDup (map fst (standard_header num f)).
Proof. cbn [map fst standard_header]. repeat (constructor; [cbn; intuition discriminate|]). constructor. Qed.

Lemma not_there : forall a, In a ["Cosmology"; "HydroScheme"; "SubgridScheme"]%string ->
  dict_get (mf_groups (hdf num extra f)) (txt a) = None.
Proof.
  intros a H. destruct (dict_get (mf_groups (hdf num extra f)) (txt a)) as [gi|] eqn:E; [|reflexivity]. exfalso.
  apply group_found in E. destruct H as [<-|[<-|[<-|[]]]]; destruct E as [(E & _)|[(E & _)|(t & fs & _ & E)]]; discriminate.
Qed.
End File.

Lemma handle_stored : forall t field, must_have t field -> exists h, stored_as field h /\ handle field = txt h /\ snake (handle field) = txt field.
Proof.
  intros t field [H|[(-> & _)|(-> & _)]].
  - destruct H as [<-|[<-|[<-|[<-|[]]]]]; eexists; (split; [constructor|split; reflexivity]).
  - eexists. split; [constructor|split; reflexivity].
  - eexists. split; [constructor|split; reflexivity].
Qed.

Lemma type_named : forall t n, nth_error type_names t = Some n -> t < 8 /\ named KSnapshot (part_type t) (txt n).
Proof.
  intros t n H. split; [apply (proj1 (nth_error_Some type_names t)); congruence|]. exists t, n. split; [exact H|]. split; [|reflexivity].
  now apply type_group_iff.
Qed.

Lemma all_keep : forall gs g l, (forall x, In x l -> ~ In (path_of g x) gs) -> forall r, fields_of gs g l r -> r = l.
Proof.
  intros gs g l H r F. induction F as [|item l r I F IH|item l r I F IH]; [reflexivity| |].
  - destruct (H item); [now left|assumption].
  - f_equal. apply IH. intros x Hx. apply H. now right.
Qed.

Section Opened.
Variables (text_error : pyerr) (is_date : name -> bool) (cosmology_ok : dict -> res unit).
Variables (num : R -> Q) (extra : dict) (f : file).
Hypothesis ok : fine_file f.
Hypothesis alone : leaves_alone extra.
Hypothesis readable : can_be_read extra.

Let h := merged (standard_header num f) extra.

Lemma in_header : forall field, dict_get h (txt field) =
  match dict_get extra (txt field) with Some v => Some v | None => dict_get (standard_header num f) (txt field) end.
Proof. intro field. unfold h. apply merged_get. apply entry_unique. Qed.

Lemma in_standard : forall field, In field deciding -> dict_get h (txt field) = dict_get (standard_header num f) (txt field).
Proof. intros field H. rewrite in_header. now rewrite (alone field H). Qed.

Ltac standard := rewrite in_standard by (cbn; tauto); reflexivity.

Lemma header_fine : header_ok h.
Proof.
  destruct readable as (R1 & R2 & R3 & R4 & R5). unfold header_ok.
  assert (E : forall field P, ~ In (txt field) (map fst (standard_header num f)) -> if_there extra field P -> if_there h field P).
  { intros field P N H v Hv. unfold has in Hv. rewrite in_header in Hv. destruct (dict_get extra (txt field)) eqn:X.
    - injection Hv as ->. now apply H.
    - rewrite (dict_get_not _ _ _ N) in Hv. discriminate. }
  assert (S : forall field (P : hval -> Prop) v, dict_get h (txt field) = Some v -> P v -> if_there h field P).
  { intros field P v Hv Hp w Hw. unfold has in Hw. congruence. }
  assert (N : forall field, In field ["Time"; "Redshift"; "InitialMassTable"; "SnapshotDate"; "Snapshot date"]%string ->
    ~ In (txt field) (map fst (standard_header num f))).
  { intros field H I. destruct H as [<-|[<-|[<-|[<-|[<-|[]]]]]]; cbn in I; intuition discriminate. }
  split; [apply E; [apply N; cbn; tauto|assumption]|].
  split; [eapply S; [standard|discriminate]|].
  split; [apply E; [apply N; cbn; tauto|assumption]|].
  split; [eapply S; [standard|discriminate]|].
  split; [eapply S; [standard|exact I]|].
  split; [eapply S; [standard|exact I]|].
  split; [apply E; [apply N; cbn; tauto|assumption]|].
  split; [apply E; [apply N; cbn; tauto|assumption]|].
  split.
  - intros M. apply E; [apply N; cbn; tauto|]. apply R5. unfold missing in *. rewrite in_header in M.
    destruct (dict_get extra (txt "SnapshotDate")); [discriminate|reflexivity].
  - unfold missing. rewrite in_standard by (cbn; tauto). discriminate.
Qed.

Lemma groups_listed : listed KSnapshot (hdf num extra f) h (map part_type (map fst (f_groups f))).
Proof.
  exists (map inject_Z (f_counts f)), (map fst (f_groups f)). split; [|split; [|split]].
  - right. split; unfold missing, has; standard.
  - apply (ff_sorted f ok).
  - intro t. split.
    + intro Ht. destruct (ff_in f ok t Ht) as (n & N & P). exists (inject_Z n). split; [now apply map_nth_error|].
      clear - P. intro Z. unfold inject_Z, Qeq in Z. cbn in Z. lia.
    + intros (x & X & Z). destruct (in_dec Nat.eq_dec t (map fst (f_groups f))) as [|N]; [assumption|]. exfalso.
      assert (t < 8). { clear - ok X. rewrite <- (ff_length f ok). rewrite <- (map_length inject_Z). apply nth_error_Some. congruence. }
      rewrite (map_nth_error inject_Z _ _ (ff_out f ok t H N)) in X. injection X as <-. now apply Z.
  - induction (map fst (f_groups f)) as [|t l IH]; constructor; auto. now apply type_group_iff.
Qed.

Lemma no_nested : forall t item, ~ In (path_of (part_type t) item) (map part_type (map fst (f_groups f))).
Proof.
  intros t item H. apply in_map_iff in H. destruct H as (s & E & _). apply (part_type_no_slash s). rewrite E.
  unfold path_of. apply in_or_app. right. now left.
Qed.

Lemma listed_same : forall gs, listed KSnapshot (hdf num extra f) h gs -> gs = map part_type (map fst (f_groups f)).
Proof.
  intros gs (l & pos & T & S & P & F). 
  assert (L : l = map inject_Z (f_counts f)).
  { destruct T as [T|(_ & T)]; unfold has in T; rewrite in_standard in T by (cbn; tauto); [discriminate|].
    injection T as <-. reflexivity. }
  subst l. destruct groups_listed as (l' & pos' & T' & S' & P' & F').
  assert (L : l' = map inject_Z (f_counts f)).
  { destruct T' as [T'|(_ & T')]; unfold has in T'; rewrite in_standard in T' by (cbn; tauto); [discriminate|].
    injection T' as <-. reflexivity. }
  subst l'. assert (E : forall i, In i pos <-> In i pos') by (intro i; rewrite P, P'; reflexivity).
  assert (Q : pos = pos').
  { clear - S S' E. revert pos' S' E. induction S as [|x l S IH Fx]; intros [|y l'] S' E; [reflexivity| | |].
    - destruct (proj2 (E y)). now left.
    - destruct (proj1 (E x)). now left.
    - inversion S' as [|? ? S2 Fy]; subst. rewrite Forall_forall in Fx, Fy.
      assert (x = y).
      { destruct (proj1 (E x)) as [H|H]; [now left|congruence|]. specialize (Fy x H).
        destruct (proj2 (E y)) as [G|G]; [now left|congruence|]. specialize (Fx y G). lia. }
      subst y. f_equal. apply IH; [assumption|]. intro i. specialize (E i). cbn [In] in E. split; intro Hi.
      + destruct (proj1 E) as [H|H]; [now right|specialize (Fx i Hi); lia|assumption].
      + destruct (proj2 E) as [H|H]; [now right|specialize (Fy i Hi); lia|assumption]. }
  subst pos'. clear - F F'. revert F'. generalize (map part_type (map fst (f_groups f))).
  induction F as [|i g pos gs G F IH]; intros l F'; inversion F' as [|? g' ? ? G' F2]; subst; [reflexivity|].
  f_equal; [|now apply IH]. apply type_group_iff in G. apply type_group_iff in G'. congruence.
Qed.

Lemma opens : exists m, open_metadata text_error is_date cosmology_ok (hdf num extra f) = Ok (KSnapshot, m)
  /\ read_metadata text_error is_date cosmology_ok KSnapshot (hdf num extra f) = Ok m.
Proof.
  pose proof (header_found num extra f ok) as H. fold h in H.
  assert (R : exists m, read_metadata text_error is_date cosmology_ok KSnapshot (hdf num extra f) = Ok m).
  { apply (C77_accepts_iff _ _ _ _ _ h H). split; [intros key data []|]. split; [exact header_fine|]. split; [exact I|]. split.
    - exists (map part_type (map fst (f_groups f))). split; [exact groups_listed|].
      apply Forall_forall. intros g Hg. apply in_map_iff in Hg. destruct Hg as (t & <- & Ht). split.
      + destruct (nth_error type_names t) as [n|] eqn:N.
        * exists (txt n). now apply type_named.
        * exfalso. apply nth_error_None in N. specialize (ff_small f ok t Ht). cbn in N. lia.
      + apply in_map_iff in Ht. destruct Ht as ((t', fs) & E & Ht). cbn in E. subst t'.
        eexists. split; [apply group_found; [exact ok|]; right; right; exists t, fs; split; [exact Ht|reflexivity]|].
        intros item s _ _ _. discriminate.
    - exists false. split; [|discriminate]. unfold cosmological, cosmology_in.
      rewrite (not_there num extra f ok) by (cbn; tauto). reflexivity. }
  destruct R as (m & R). exists m. split; [|exact R]. apply (C77_kind _ _ _ _ h _ _ H). split; [exact R|]. left.
  split; [unfold missing; standard|reflexivity].
Qed.
End Opened.

(** * Loading *)

Lemma slash_split : forall (a b x y : name), ~ In slash a -> ~ In slash b -> a ++ slash :: x = b ++ slash :: y -> a = b /\ x = y.
Proof.
  induction a as [|c a IH]; intros [|e b] x y A B E; cbn [app] in E.
  - injection E as <-. auto.
  - injection E as <- _. destruct B. now left.
  - injection E as -> _. destruct A. now left.
  - injection E as -> E. destruct (IH b x y) as (-> & ->); auto; intro H; [apply A|apply B]; now right.
Qed.

Lemma handle_inj : forall s t x y, must_have s x -> must_have t y -> handle x = handle y -> x = y.
Proof.
  intros s t x y X Y E. destruct (handle_stored s x X) as (_ & _ & _ & P). destruct (handle_stored t y Y) as (_ & _ & _ & Q).
  rewrite E in P. rewrite P in Q. unfold txt in Q. apply (f_equal string_of_list_ascii) in Q.
  now rewrite !string_of_list_ascii_of_string in Q.
Qed.

Lemma dataset_found : forall f, fine_file f -> forall t g field d, In (t, g) (f_groups f) -> In (field, d) g ->
  find_dataset f (part_type t ++ slash :: handle field) = Some d.
Proof.
  intros f ok t g field d Hg Hd. unfold find_dataset.
  assert (I : In (part_type t ++ slash :: handle field, d) (datasets f)).
  { unfold datasets. apply in_flat_map. exists (t, g). split; [exact Hg|]. apply in_map_iff. exists (field, d). auto. }
  destruct (find (fun pd => name_eqb (fst pd) (part_type t ++ slash :: handle field)) (datasets f)) as [[p d']|] eqn:E.
  - apply find_some in E. destruct E as (J & E). cbn [fst] in E. apply name_eqb_iff in E. subst p. cbn [option_map snd]. f_equal.
    unfold datasets in J. apply in_flat_map in J. destruct J as ((t', g') & Hg' & J). apply in_map_iff in J.
    destruct J as ((field', d2) & E & Hd'). cbn [fst snd] in *. pose proof (f_equal snd E) as D. apply (f_equal fst) in E. cbn [fst snd] in D, E. subst d2.
    apply slash_split in E; try apply part_type_no_slash. destruct E as (E1 & E2). apply part_type_inj in E1. subst t'.
    assert (g' = g).
    { pose proof (types_differ f ok) as N. clear - N Hg Hg'. induction (f_groups f) as [|[u x] l IH]; [destruct Hg|].
      inversion N as [|? ? N1 N2]; subst. cbn [fst] in N1.
      destruct Hg as [Hg|Hg]; destruct Hg' as [Hg'|Hg']; [congruence| | |auto].
      - injection Hg as -> ->. destruct N1. now apply (in_map fst) in Hg'.
      - injection Hg' as -> ->. destruct N1. now apply (in_map fst) in Hg. }
    subst g'. destruct (ff_fields f ok t g Hg) as (N & M).
    assert (field' = field).
    { apply (handle_inj t t); auto; apply M; [now apply (in_map fst) in Hd'|now apply (in_map fst) in Hd]. }
    subst field'. clear - N Hd Hd'. induction g as [|[u x] l IH]; [destruct Hd|].
    inversion N as [|? ? N1 N2]; subst. cbn [fst] in N1.
    destruct Hd as [Hd|Hd]; destruct Hd' as [Hd'|Hd']; [congruence| | |auto].
    + injection Hd as -> ->. destruct N1. now apply (in_map fst) in Hd'.
    + injection Hd' as -> ->. destruct N1. now apply (in_map fst) in Hd.
  - exfalso. apply (find_none _ _ E) in I. cbn [fst] in I. rewrite name_eqb_refl in I. discriminate.
Qed.

(** The attributes of a dataset of the writer give the array of the reader. *)
Lemma getter_written : forall show num u a field at_ values, Q2R (num (at_a at_)) = at_a at_ ->
  exists x, getter show u a false None field (Some (dataset_attributes num at_)) (Ok values) = Ok (Some x)
    /\ u_unit (m_array x) = load_units u at_
    /\ avals (u_arr (m_array x)) = values
    /\ acf (u_arr (m_array x)) = Some (mkcf (Some (at_a at_)) (Some a))
    /\ acm (u_arr (m_array x)) = Some true /\ avt (u_arr (m_array x)) = true
    /\ m_name x = txt "No description available. Not masked. [Column None, " ++ field ++ txt "]"
    /\ m_compression x = AText (txt "No compression info available").
Proof.
  intros show num u a field at_ values E.
  unfold getter, build. eexists. split; [reflexivity|]. cbn. rewrite E. repeat split.
Qed.

Lemma by_fine : forall fz l w f, written_by fz l w f -> fine_file f.
Proof. intros fz l w f (S & i & st' & W & H). now apply (written_fine fz l i w st' f). Qed.

Lemma txt_inj : forall s t, txt s = txt t -> s = t.
Proof.
  intros s t E. unfold txt in E. apply (f_equal string_of_list_ascii) in E.
  now rewrite !string_of_list_ascii_of_string in E.
Qed.

Lemma combine_map_same : forall A B C (f : A -> B) (g : A -> C) l, combine (map f l) (map g l) = map (fun x => (f x, g x)) l.
Proof. induction l; cbn; [reflexivity|now f_equal]. Qed.

Lemma path_le : forall g x y, text_le x y -> text_le (path_of g x) (path_of g y).
Proof.
  intros g x y [(r & ->)|(p & a & b & s & t & -> & -> & L)]; unfold path_of.
  - left. exists r. now rewrite <- app_assoc.
  - right. exists (g ++ slash :: p), a, b, s, t. rewrite <- !app_assoc. auto.
Qed.

(** * C107 *)

(** The file can be opened; what its header says. *)
Theorem C107_opens : forall text_error is_date cosmology_ok fz num extra l w f,
  written_by fz l w f -> leaves_alone extra -> can_be_read extra ->
  exists m, open_metadata text_error is_date cosmology_ok (hdf num extra f) = Ok (KSnapshot, m)
  /\ shows m "a" (VNum (num (w_a w))) /\ shows m "scale_factor" (VNum (num (w_a w)))
  /\ shows m "boxsize" (VCosmo (map num (w_box w)) false DLength (VNum (num (w_a w))) 1%Q true true)
  /\ shows m "dimension" (VNum (inject_Z (zlen (w_box w))))
  /\ shows m "num_files_per_snapshot" (VHeader (HNum 1%Q))
  /\ (exists t, shows m "mass_table" (VMasses t) /\ masses_of (map num (f_masses f)) t)
  /\ shows m "cosmology" VNone /\ shows m "gas_gamma" VNone /\ lacks m "has_type".
Proof.
  intros te d c fz num extra l w f B A C. pose proof (by_fine _ _ _ _ B) as ok.
  assert (W : f_a f = w_a w /\ f_box f = w_box w).
  { destruct B as (Hl & i & st' & Hw & H). destruct (reachable fz l Hl) as (Hok & Hs).
    destruct (write_cases _ _ _ _ _ _ Hok Hs Hw H) as [(e & Hc & _) | (w' & names & gen & Ho & Hf)]; [discriminate|].
    destruct Ho as (_ & _ & _ & Hsys & Ha & Hb & _). 
    symmetry in Hf. unfold write_file in Hf. destruct (all_ok _) as [ms|] eqn:M; [|discriminate].
    destruct (write_groups _ _ _ _) as [gs|]; [|discriminate]. injection Hf as <-. cbn [f_a f_box]. auto. }
  destruct W as (W1 & W2).
  destruct (opens te d c num extra f ok A C) as (m & O & R). exists m. split; [exact O|].
  pose proof (header_found num extra f ok) as H. set (h := merged _ _) in H.
  pose proof (in_standard num extra f A) as S. fold h in S.
  assert (Sa : has h "Scale-factor" (HArr [num (f_a f)])) by (unfold has; rewrite S by (cbn; tauto); reflexivity).
  destruct (proj1 (C77_scale_factor _ _ _ _ _ _ _ R H) _ _ Sa (item_arr [num (f_a f)] 0 _ eq_refl)) as (A1 & A2).
  rewrite <- W1, <- W2.
  split; [exact A1|]. split; [exact A2|]. split.
  { apply (proj1 (C77_box_size _ _ _ _ _ _ _ R H)); [|exact A1]. unfold has. rewrite S by (cbn; tauto). reflexivity. }
  split.
  { apply (proj1 (C77_singles _ _ _ _ _ _ _ R H "Dimension" "dimension" ltac:(cbn; tauto)) (HArr [inject_Z (zlen (f_box f))]));
      [unfold has; rewrite S by (cbn; tauto); reflexivity|constructor; reflexivity]. }
  split.
  { apply (proj1 (C77_handed_on _ _ _ _ _ _ _ R H "NumFilesPerSnapshot" "num_files_per_snapshot" ltac:(cbn; tauto))).
    unfold has. rewrite S by (cbn; tauto). reflexivity. }
  split.
  { apply (proj1 (C77_masses _ _ _ _ _ _ _ R H "MassTable" "mass_table" ltac:(cbn; tauto))).
    unfold has. rewrite S by (cbn; tauto). reflexivity. }
  split.
  { apply (proj2 (C77_cosmology _ _ _ _ _ _ R)). unfold cosmological, cosmology_in.
    rewrite (not_there num extra f ok) by (cbn; tauto). reflexivity. }
  split.
  { apply (proj2 (proj2 (C77_gas_gamma _ _ _ _ _ _ _ R H))). apply (not_there num extra f ok). cbn. tauto. }
  apply (proj2 (C77_handed_on _ _ _ _ _ _ _ R H "CanHaveTypes" "has_type" ltac:(cbn; tauto))).
  unfold missing. rewrite S by (cbn; tauto). reflexivity.
Qed.

(** The dictionaries of the file: the header with the entries of the extra header (which win), and the units. *)
Theorem C107_dictionaries : forall text_error is_date cosmology_ok fz num extra l w f k m,
  written_by fz l w f ->
  open_metadata text_error is_date cosmology_ok (hdf num extra f) = Ok (k, m) ->
  exists h u, shows m "header" (VDict h)
  /\ (forall field v, has extra field v -> has h field v)
  /\ (forall field v, missing extra field -> header_entry num w f field v -> has h field v)
  /\ (forall field v, has h field v -> has extra field v \/ header_entry num w f field v)
  /\ dict_get (mf_groups (hdf num extra f)) (txt "Units") = Some u
  /\ (forall field v, has (gi_attrs u) field v <-> unit_entry num (w_sys w) field v).
Proof.
  intros te d c fz num extra l w f k m B O. pose proof (by_fine _ _ _ _ B) as ok.
  assert (W : f_a f = w_a w /\ f_box f = w_box w /\ f_units f = mkusys (uM (w_sys w)) (uL (w_sys w)) (ut (w_sys w)) (uT (w_sys w)) 1 1).
  { destruct B as (Hl & i & st' & Hw & H). destruct (reachable fz l Hl) as (Hok & Hs).
    destruct (write_cases _ _ _ _ _ _ Hok Hs Hw H) as [(e & Hc & _) | (w' & names & gen & Ho & Hf)]; [discriminate|].
    destruct Ho as (_ & _ & _ & Hsys & Ha & Hb & _).
    symmetry in Hf. unfold write_file in Hf. destruct (all_ok _) as [ms|] eqn:M; [|discriminate].
    destruct (write_groups _ _ _ _) as [gs|]; [|discriminate]. injection Hf as <-. cbn [f_a f_box f_units].
    rewrite Hsys. auto. }
  destruct W as (W1 & W2 & W3).
  pose proof (header_found num extra f ok) as H.
  apply (C77_kind _ _ _ _ _ _ _ H) in O. destruct O as (R & _). destruct H as (g & G & Eg).
  set (h := merged (standard_header num f) extra) in *.
  assert (E : forall field v, header_entry num w f field v <-> dict_get (standard_header num f) (txt field) = Some v).
  { intros field v. rewrite dict_get_in by apply entry_unique. unfold standard_header. rewrite W1, W2. split.
    - intros []; cbn [In]; tauto.
    - intro I. cbn [In] in I.
      repeat (destruct I as [I|I]; [pose proof (f_equal fst I) as I1; apply (f_equal snd) in I; cbn [fst snd] in I, I1;
        apply txt_inj in I1; subst field v; constructor|]). destruct I. }
  assert (F : forall field, dict_get h (txt field) = match dict_get extra (txt field) with
               | Some v => Some v | None => dict_get (standard_header num f) (txt field) end).
  { intro field. unfold h. apply merged_get. apply entry_unique. }
  exists h. eexists. split.
  { rewrite <- Eg. apply (C77_dictionaries _ _ _ _ _ _ R "Header" "header" ltac:(cbn; tauto)). exact G. }
  unfold has, missing. split; [intros field v X; now rewrite F, X|].
  split; [intros field v X Y; rewrite F, X; now apply E|].
  split. { intros field v X. rewrite F in X. destruct (dict_get extra (txt field)); [auto|]. right. now apply E. }
  split. { apply (group_found num extra f ok). right. left. split; reflexivity. }
  intros field v. cbn [gi_attrs]. rewrite dict_get_in.
  2:{ cbn [map fst unit_attributes]. repeat (constructor; [cbn; intuition discriminate|]). constructor. }
  rewrite W3. unfold unit_attributes. cbn [uM uL ut uT]. split.
  - intro I. cbn [In] in I.
    repeat (destruct I as [I|I]; [pose proof (f_equal fst I) as I1; apply (f_equal snd) in I; cbn [fst snd] in I, I1;
      apply txt_inj in I1; subst field v; constructor|]). destruct I.
  - intros []; cbn [In]; tauto.
Qed.

(** The attributes of a dataset.  The two factors are the right ones for its numbers. *)
Theorem C107_attributes : forall fz num l i st' f t g field d,
  Forall op_shaped l -> write fz (wrun fz init l) i = (st', Written f) ->
  In (t, g) (f_groups f) -> In (field, d) g ->
  exists w loc x a e e',
    nth_error (writers st') i = Some w /\ w_fields w t field = Some loc /\ nth_error (mem st') loc = Some x
    /\ acf (wdata x) = Some (mkcf (Some e) (Some a))
    /\ ds_shape d = wshape x /\ ds_vals d = avals (wdata x)
    /\ (e <> 0%R \/ (wint x = false /\ fz = false) -> e' = e) /\ (e = 0%R -> wint x = true \/ fz = true -> e' = 1%R)
    /\ (forall k v, LabelSpec.has (dataset_attributes num (ds_attrs d)) (txt k) v <-> attribute_entry num x a e e' k v)
    /\ (acm (wdata x) = Some true ->
          cgs x = map (fun v => v * (wunit x * Rpower a e))%R (ds_vals d)
          /\ map (fun v => v * wunit x)%R (comov (wdata x)) = map (fun v => v * wunit x)%R (ds_vals d)).
Proof.
  intros fz num l i st' f t g field d Hl H Hg Hd. destruct (reachable fz l Hl) as (Hok & Hs).
  destruct (nth_error (writers (wrun fz init l)) i) as [w|] eqn:Hw; [|unfold write in H; rewrite Hw in H; discriminate].
  destruct (write_cases _ _ _ _ _ _ Hok Hs Hw H) as [(er & Hc & _) | (w' & names & gen & Ho & Hf)]; [discriminate|].
  destruct Ho as (_ & Hw' & _). symmetry in Hf. unfold write_file in Hf. destruct (all_ok _) as [ms|] eqn:M; [|discriminate].
  destruct (write_groups _ _ _ _) as [gs|] eqn:G; [|discriminate]. injection Hf as <-. cbn [f_groups] in Hg.
  apply write_groups_spec in G. destruct G as (_ & G). apply G in Hg. apply write_fields_spec in Hg. destruct Hg as (_ & Hg).
  destruct (Hg field d Hd) as (x & at_ & Lx & Ax & ->). unfold lookup in Lx.
  destruct (w_fields w' t field) as [loc|] eqn:Ew; [|discriminate].
  unfold get_attributes in Ax. destruct (acf (wdata x)) as [[[e|] [a|]]|] eqn:Ec; cbn [a_factor cexpr cscale] in Ax; try discriminate.
  injection Ax as <-. exists w', loc, x, a, e, (written_exponent fz (wint x) e).
  split; [exact Hw'|]. split; [exact Ew|]. split; [exact Lx|]. split; [exact Ec|]. split; [reflexivity|]. split; [reflexivity|].
  split.
  { intro Hc. unfold written_exponent. destruct (Reqb e 0) eqn:E; [|reflexivity]. apply Reqb_true in E.
    destruct Hc as [Hc|(-> & ->)]; [contradiction|]. now rewrite E. }
  split. { intros -> Hc. unfold written_exponent. rewrite Reqb_refl. destruct Hc as [-> | ->]; [|rewrite orb_true_r]; reflexivity. }
  split.
  { intros k v. unfold LabelSpec.has, dataset_attributes. cbn [ds_attrs at_cgs at_phys at_I at_L at_M at_T at_t at_a]. split.
    - intro I. cbn [In] in I.
      repeat (destruct I as [I|I]; [pose proof (f_equal fst I) as I1; apply (f_equal snd) in I; cbn [fst snd] in I, I1;
        apply txt_inj in I1; subst k v; constructor|]). destruct I.
    - intros []; cbn [In]; tauto. }
  intro Hc. cbn [ds_vals]. unfold cgs, phys, comov. rewrite Hc, Ec. cbn [cexpr cscale]. split; [|reflexivity].
  rewrite map_map. apply map_ext. intro v. cbn. ring.
Qed.

(** The numbers of particles. *)
Theorem C107_numbers : forall text_error is_date cosmology_ok fz num extra l w f k m,
  written_by fz l w f -> leaves_alone extra -> can_be_read extra ->
  open_metadata text_error is_date cosmology_ok (hdf num extra f) = Ok (k, m) ->
  forall t n, nth_error type_names t = Some n ->
  exists c, nth_error (f_counts f) t = Some c /\ dict_get m (txt "n_" ++ txt n) = Some (VNum (inject_Z c))
    /\ (forall g name d, In (t, g) (f_groups f) -> In (name, d) g -> exists tl, ds_shape d = c :: tl)
    /\ (~ In t (map fst (f_groups f)) -> c = 0%Z).
Proof.
  intros te d c fz num extra l w f k m B A C O t n N. pose proof (by_fine _ _ _ _ B) as ok.
  destruct (opens te d c num extra f ok A C) as (m' & O' & R). rewrite O in O'. injection O' as -> <-.
  pose proof (header_found num extra f ok) as H. set (h := merged _ _) in H.
  pose proof (in_standard num extra f A) as S. fold h in S.
  assert (T : t < 8) by now apply type_named in N.
  destruct (nth_error (f_counts f) t) as [x|] eqn:X.
  2:{ apply nth_error_None in X. rewrite (ff_length f ok) in X. lia. }
  exists x. split; [reflexivity|]. split.
  - destruct (C77_numbers _ _ _ _ _ _ _ R H) as (v & V & P). unfold has in V. rewrite S in V by (cbn; tauto).
    injection V as <-. apply (proj1 (P t n N)). constructor. now apply map_nth_error.
  - destruct B as (Hl & i & st' & Hw & Hr). destruct (C54_header_counts fz l i w st' f Hl Hw Hr) as (C1 & _ & _). split.
    + intros g nm ds Hg Hd. destruct (C1 t g nm ds Hg Hd) as (y & tl & D & Y & _). exists tl. congruence.
    + intro Ho. rewrite (ff_out f ok t T Ho) in X. congruence.
Qed.

(** The types of particles that are there, and their fields. *)
Theorem C107_fields : forall text_error is_date cosmology_ok fz num extra l w f k m,
  written_by fz l w f -> leaves_alone extra -> can_be_read extra ->
  open_metadata text_error is_date cosmology_ok (hdf num extra f) = Ok (k, m) ->
  forall t n, nth_error type_names t = Some n ->
  (populated w t -> exists gm, dict_get m (txt n ++ txt "_properties") = Some (VGroup gm)
     /\ NoDup (gm_names gm) /\ length (gm_paths gm) = length (gm_names gm)
     /\ (forall x, In x (gm_names gm) <-> exists field, must_have t field /\ x = txt field)
     /\ (forall field p, must_have t field -> (In (txt field, p) (combine (gm_names gm) (gm_paths gm)) <-> dataset_path t field p))
     /\ StronglySorted text_le (gm_paths gm)
     /\ Forall (fun pc => snd pc = None) (gm_columns gm))
  /\ (~ populated w t -> dict_get m (txt n ++ txt "_properties") = None).
Proof.
  intros te d c fz num extra l w f k m B A C O t n N. pose proof (by_fine _ _ _ _ B) as ok.
  destruct (opens te d c num extra f ok A C) as (m' & O' & R). rewrite O in O'. injection O' as -> <-.
  pose proof (header_found num extra f ok) as H. set (h := merged _ _) in H.
  assert (P : forall t, In t (map fst (f_groups f)) <-> In t ptypes /\ populated w t).
  { destruct B as (Hl & i & st' & Hw & Hr). apply (C31_type_order fz l i w st' f Hl Hw Hr). }
  destruct (type_named t n N) as (T & Tn).
  destruct (C78_groups _ _ _ _ _ _ _ R H) as (gs & L & Nm & G1 & G2).
  apply (listed_same c num extra f ok A) in L. subst gs. split.
  - intro Hp. assert (I : In t (map fst (f_groups f))) by (apply P; split; [unfold ptypes; apply in_seq; lia|exact Hp]).
    assert (I' := I). apply (in_map part_type) in I'. apply In_nth_error in I'. destruct I' as (i & Ei).
    assert (U : NoDup (map part_type (map fst (f_groups f)))).
    { pose proof (types_differ f ok) as U. clear - U. induction U as [|s r Hs U IH]; cbn [map]; constructor; auto.
      intro X. apply in_map_iff in X. destruct X as (s' & E & X). apply part_type_inj in E. now subst s'. }
    destruct (G1 i (part_type t) (txt n) Ei Tn) as (gm & Gm & _ & _ & gi & items & Fi & Ff & Pa & Na & Co & _).
    { intros j g' Hj Ej Hn. rewrite (C78_snapshot_names_differ g' (part_type t) (txt n) Hn Tn) in Ej.
      assert (i = j) by (apply (proj1 (NoDup_nth_error _) U); [apply nth_error_Some; congruence|congruence]). lia. }
    assert (K : exists fs, In (t, fs) (f_groups f) /\ gi_keys gi = sorted (map (fun nd => handle (fst nd)) fs)).
    { apply (group_found num extra f ok) in Fi. destruct Fi as [(E & _)|[(E & _)|(t' & fs & Ht & E)]]; try discriminate.
      exists fs. pose proof (f_equal fst E) as E1. pose proof (f_equal snd E) as E2. cbn [fst snd type_entry] in E1, E2.
      apply part_type_inj in E1. subst t' gi. auto. }
    destruct K as (fs & Hfs & Ek). apply (all_keep _ _ _ (fun x _ => no_nested f t x)) in Ff. rewrite Ek in Ff. clear Ek.
    destruct (ff_fields f ok t fs Hfs) as (Un & Mh).
    destruct (sorted_spec (map (fun nd => handle (fst nd)) fs)) as (So & Pe). rewrite <- Ff in So, Pe.
    assert (It : forall x, In x items <-> exists field, must_have t field /\ x = handle field).
    { intro x. split.
      - intro Hx. apply (Permutation_in x Pe) in Hx. apply in_map_iff in Hx. destruct Hx as ((fd, ds) & <- & Hx).
        exists fd. split; [|reflexivity]. apply Mh. now apply (in_map fst) in Hx.
      - intros (field & Hm & ->). apply (Permutation_in (handle field) (Permutation_sym Pe)). apply Mh in Hm. 
        apply in_map_iff in Hm. destruct Hm as (nd & <- & Hm). apply in_map_iff. exists nd. auto. }
    exists gm. split; [exact Gm|]. split.
    { rewrite Na. apply (Permutation_NoDup (l := map snake (map (fun nd => handle (fst nd)) fs)));
        [apply Permutation_map; now symmetry|].
      assert (E : map snake (map (fun nd : string * dset => handle (fst nd)) fs) = map txt (map fst fs)).
      { rewrite !map_map. apply map_ext_in. intros nd Hn. apply (in_map fst) in Hn. apply Mh in Hn.
        destruct (handle_stored t _ Hn) as (_ & _ & _ & E). exact E. }
      rewrite E. clear - Un. induction Un as [|x r Hx U IH]; cbn [map]; constructor; auto.
      intro I. apply in_map_iff in I. destruct I as (y & E & I). apply txt_inj in E. now subst y. }
    split; [rewrite Na, Pa, !map_length; reflexivity|].
    split.
    { intro x. rewrite Na, in_map_iff. split.
      - intros (y & <- & Hy). apply It in Hy. destruct Hy as (field & Hm & ->). exists field. split; [exact Hm|].
        destruct (handle_stored t _ Hm) as (_ & _ & _ & E). exact E.
      - intros (field & Hm & ->). exists (handle field). split; [|apply It; eauto].
        destruct (handle_stored t _ Hm) as (_ & _ & _ & E). exact E. }
    split.
    { intros field p Hm. rewrite Na, Pa, combine_map_same, in_map_iff. destruct (handle_stored t _ Hm) as (hd & Hs & Eh & E). split.
      - intros (y & Ey & Hy). apply It in Hy. destruct Hy as (field' & Hm' & ->).
        destruct (handle_stored t _ Hm') as (_ & _ & _ & E').
        pose proof (f_equal fst Ey) as E1. pose proof (f_equal snd Ey) as E2. cbn [fst snd] in E1, E2.
        rewrite E' in E1. apply txt_inj in E1. subst field' p. exists (part_type t), hd.
        split; [now apply type_group_iff|]. split; [exact Hs|]. unfold path_of. now rewrite Eh.
      - intros (g & h' & Hg & Hs' & ->). apply type_group_iff in Hg. subst g.
        assert (h' = hd) by (destruct Hs; inversion Hs'; reflexivity). subst h'.
        exists (handle field). rewrite E, Eh. split; [reflexivity|]. apply It. exists field. auto. }
    split.
    { rewrite Pa. clear - So. induction So as [|x r S IH F]; cbn [map]; constructor; auto.
      apply Forall_forall. intros y Hy. apply in_map_iff in Hy. destruct Hy as (z & <- & Hz).
      rewrite Forall_forall in F. apply path_le. now apply F. }
    { clear - Co. induction Co as [|x pc r cs (_ & s & _ & E) Co IH]; constructor; auto. }
  - intro Hp. destruct (dict_get m (txt n ++ txt "_properties")) as [v|] eqn:E; [|reflexivity]. exfalso. apply Hp.
    destruct (G2 (txt n ++ txt "_properties") v) as (g & n' & gm & Hg & Hn & En & _); [exists (txt n); reflexivity|exact E|].
    apply app_inv_tail in En. subst n'.
    rewrite (C78_snapshot_names_differ g (part_type t) (txt n) Hn Tn) in Hg.
    apply in_map_iff in Hg. destruct Hg as (s & E' & Hs). apply part_type_inj in E'. subst s. now apply P.
Qed.

(** With no extra header there is no time, no redshift and no name of the run. *)
Theorem C107_bare_header : forall text_error is_date cosmology_ok fz num l w f k m,
  written_by fz l w f -> open_metadata text_error is_date cosmology_ok (hdf num [] f) = Ok (k, m) ->
  lacks m "time" /\ lacks m "t" /\ lacks m "redshift" /\ lacks m "z"
  /\ forall field attr, In (field, attr) texts -> shows m attr (VText []).
Proof.
  intros te d c fz num l w f k m B O. pose proof (by_fine _ _ _ _ B) as ok.
  assert (A : leaves_alone []) by (intros x _; reflexivity).
  assert (C : can_be_read []) by (unfold can_be_read, if_there, has; cbn; repeat split; intros; discriminate).
  destruct (opens te d c num [] f ok A C) as (m' & O' & R). rewrite O in O'. injection O' as -> <-.
  pose proof (header_found num [] f ok) as H.
  split; [apply (C77_time _ _ _ _ _ _ _ R H); reflexivity|]. split; [apply (C77_time _ _ _ _ _ _ _ R H); reflexivity|].
  split; [apply (C77_singles _ _ _ _ _ _ _ R H "Redshift" "redshift" ltac:(cbn; tauto)); reflexivity|].
  split; [apply (C77_singles _ _ _ _ _ _ _ R H "Redshift" "z" ltac:(cbn; tauto)); reflexivity|].
  intros field attr I. apply (C77_texts _ _ _ _ _ _ _ R H field attr I).
  destruct I as [I|[I|[I|[I|[]]]]]; apply (f_equal fst) in I; cbn [fst] in I; subst field; reflexivity.
Qed.

Lemma dict_get_combine : forall A (l : list name) (r : list A) k v, NoDup l -> length r = length l ->
  (dict_get (combine l r) k = Some v <-> In (k, v) (combine l r)).
Proof.
  intros A l r k v N L. apply dict_get_in.
  assert (E : map fst (combine l r) = l).
  { revert r L. clear. induction l as [|x l IH]; intros [|y r] L; cbn in *; try congruence.
    f_equal. apply IH. congruence. }
  now rewrite E.
Qed.

(** Each dataset is found under the name that it has in the writer, and its array is the one of
    [read_field] in WriterModel.v.  Other names are not there. *)
Theorem C107_loads : forall text_error is_date cosmology_ok show ru fz num extra l w f k m,
  written_by fz l w f -> leaves_alone extra -> can_be_read extra -> exact_labels num f ->
  open_metadata text_error is_date cosmology_ok (hdf num extra f) = Ok (k, m) ->
  forall t n, nth_error type_names t = Some n ->
  (forall g field d, In (t, g) (f_groups f) -> In (field, d) g ->
     exists x, load num show ru f m (txt n) (txt field) = Ok (Some x)
       /\ let y := read_field ru f d in
          u_unit (m_array x) = (wunit y, wdims y)
          /\ avals (u_arr (m_array x)) = ds_vals d /\ avals (u_arr (m_array x)) = avals (wdata y)
          /\ acf (u_arr (m_array x)) = acf (wdata y) /\ acm (u_arr (m_array x)) = Some true
          /\ acm (u_arr (m_array x)) = acm (wdata y)
          /\ avt (u_arr (m_array x)) = true
          /\ m_name x = txt "No description available. Not masked. [Column None, " ++ txt field ++ txt "]"
          /\ m_compression x = AText (txt "No compression info available"))
  /\ (forall field, ~ (populated w t /\ must_have t field) ->
        load num show ru f m (txt n) (txt field) = Err AttributeError).
Proof.
  intros te dt c show ru fz num extra l w f k m B A C X O t n N. pose proof (by_fine _ _ _ _ B) as ok.
  destruct (C107_fields te dt c fz num extra l w f k m B A C O t n N) as (F1 & F2).
  assert (Ha : dict_get m (txt "a") = Some (VNum (num (f_a f)))).
  { destruct (opens te dt c num extra f ok A C) as (m' & O' & R). rewrite O in O'. injection O' as -> <-.
    pose proof (header_found num extra f ok) as H.
    refine (proj1 (proj1 (C77_scale_factor _ _ _ _ _ _ _ R H) (HArr [num (f_a f)]) _ _ (item_arr [num (f_a f)] 0 _ eq_refl))).
    unfold has. rewrite (in_standard num extra f A) by (cbn; tauto). reflexivity. }
  assert (P : forall t, In t (map fst (f_groups f)) <-> In t ptypes /\ populated w t).
  { destruct B as (Hl & i & st' & Hw & Hr). apply (C31_type_order fz l i w st' f Hl Hw Hr). }
  split.
  - intros g field d Hg Hd.
    assert (Hp : populated w t) by (apply P; now apply (in_map fst) in Hg).
    assert (Hm : must_have t field) by (apply (ff_fields f ok t g Hg); now apply (in_map fst) in Hd).
    destruct (F1 Hp) as (gm & Gm & Un & Len & _ & Pa & _).
    unfold load. rewrite Gm, Ha.
    assert (Dp : dataset_path t field (part_type t ++ slash :: handle field)).
    { destruct (handle_stored t field Hm) as (h & Hs & Eh & _). exists (part_type t), h.
      split; [now apply type_group_iff|]. split; [exact Hs|]. now rewrite Eh. }
    apply (Pa field _ Hm) in Dp. apply dict_get_combine in Dp; auto. rewrite Dp. cbv zeta.
    rewrite (dataset_found f ok t g field d Hg Hd). cbn [option_map].
    destruct X as (X1 & X2).
    destruct (getter_written show num (ru (f_units f)) (Q2R (num (f_a f))) (txt field) (ds_attrs d) (ds_vals d) (X2 t g field d Hg Hd))
      as (x & Ex & E1 & E2 & E3 & E4 & E5 & E6 & E7).
    exists x. split; [exact Ex|]. unfold read_field. cbn [wunit wdims wdata avals acf acm].
    split; [rewrite E1; destruct (load_units (ru (f_units f)) (ds_attrs d)); reflexivity|].
    split; [exact E2|]. split; [exact E2|]. split; [rewrite E3, X1; reflexivity|]. auto.
  - intros field No. unfold load. destruct (dict_get m (txt n ++ txt "_properties")) as [v|] eqn:E; [|reflexivity].
    assert (D : populated w t \/ ~ populated w t).
    { destruct (in_dec Nat.eq_dec t (map fst (f_groups f))) as [H|H]; [left; now apply P|right].
      intro Hp. apply H. apply P. split; [|exact Hp]. unfold ptypes. apply in_seq. apply type_named in N. lia. }
    destruct D as [Hp|Hp]; [|discriminate (F2 Hp)].
    destruct (F1 Hp) as (gm & Gm & Un & Len & Na & _). injection Gm as ->. rewrite Ha.
    destruct (dict_get (combine (gm_names gm) (gm_paths gm)) (txt field)) as [p|] eqn:D; [|reflexivity]. exfalso.
    apply dict_get_combine in D; auto. apply in_combine_l in D. apply Na in D. destruct D as (field' & Hm & Ef).
    apply txt_inj in Ef. subst field'. apply No. auto.
Qed.

(** What was given to the writer is what the reader shows, in cgs units, unless the label of the array had
    the exponent 0 (see C33_zero_exponent_refuted). *)
Theorem C107_round_trip : forall text_error is_date cosmology_ok show fz ru num extra s l1 l2 i w st' f k m t g n field d,
  Forall op_shaped (l1 ++ l2) -> Forall no_mutation (l1 ++ l2) -> Forall (one_system s) (l1 ++ l2) -> exact_units ru s ->
  nth_error (writers (wrun fz init (l1 ++ l2))) i = Some w ->
  write fz (wrun fz init (l1 ++ l2)) i = (st', Written f) ->
  leaves_alone extra -> can_be_read extra -> exact_labels num f ->
  open_metadata text_error is_date cosmology_ok (hdf num extra f) = Ok (k, m) ->
  nth_error type_names t = Some n ->
  In (t, g) (f_groups f) -> In (field, d) g -> field <> "particle_ids"%string ->
  exists w' loc x e made,
    nth_error (writers st') i = Some w' /\ w_fields w' t field = Some loc
    /\ nth_error (mem st') loc = Some x /\ exponent x = Some e
    /\ load num show ru f m (txt n) (txt field) = Ok (Some made)
    /\ forall x0, nth_error (mem (wrun fz init l1)) loc = Some x0 ->
       dims_eq (snd (u_unit (m_array made))) (wdims x0)
       /\ (e <> 0%R \/ (wint x0 = false /\ fz = false) -> meaning made = cgs x0)
       /\ (e = 0%R -> wint x0 = true \/ fz = true -> meaning made = map (fun v => Rpower (f_a f) 1 * v)%R (cgs x0)).
Proof.
  intros te dt c show fz ru num extra s l1 l2 i w st' f k m t g n field d Sh No One Ex Hw H A C X O N Hg Hd Hne.
  destruct (C33_read_back fz ru s l1 l2 i st' f t g field d Sh No One Ex H Hg Hd Hne)
    as (w' & loc & x & e & W & L & M & E & Back).
  assert (B : written_by fz (l1 ++ l2) w f) by (split; [exact Sh|eauto]).
  destruct (proj1 (C107_loads te dt c show ru fz num extra _ w f k m B A C X O t n N) g field d Hg Hd)
    as (z & Lz & Uz & _ & Vz & Fz & _ & Cz & _).
  exists w', loc, x, e, z. repeat (split; [assumption|]). intros x0 H0. destruct (Back x0 H0) as (D & _ & R1 & R2 & R3).
  assert (Me : meaning z = cgs (read_field ru f d)).
  { unfold meaning, cgs. rewrite Uz. cbn [fst]. f_equal. unfold phys. rewrite Vz, Fz, Cz. reflexivity. }
  split; [rewrite Uz; exact D|]. rewrite Me. split.
  - intros [H1|(H1 & H2)]; [now apply R1|]. destruct (Req_dec e 0) as [->|H3]; [now apply R3|now apply R1].
  - intros H1 H2. now apply R2.
Qed.

(** The IDs: those of the file, in the order of the types. *)
Theorem C107_ids : forall text_error is_date cosmology_ok show ru fz num extra l w f k m,
  written_by fz l w f -> leaves_alone extra -> can_be_read extra -> exact_labels num f ->
  open_metadata text_error is_date cosmology_ok (hdf num extra f) = Ok (k, m) ->
  exists ids, NoDup (concat ids)
    /\ Forall2 (fun t v => exists n x, nth_error type_names t = Some n
                  /\ load num show ru f m (txt n) (txt "particle_ids") = Ok (Some x)
                  /\ avals (u_arr (m_array x)) = v) (map fst (f_groups f)) ids
    /\ (ids_missing w -> concat ids = map IZR (zrange 1 (1 + sumZ (f_counts f)))).
Proof.
  intros te dt c show ru fz num extra l w f k m B A C X O. pose proof (by_fine _ _ _ _ B) as ok.
  exists (map (fun g => concat (map (fun nd => if String.eqb (fst nd) "particle_ids" then ds_vals (snd nd) else []) (snd g))) (f_groups f)).
  fold (file_ids f). split; [|split].
  - destruct B as (Hl & i & st' & Hw & Hr). apply (C32_written_ids_distinct fz l i st' f Hl Hr).
  - assert (G : forall tg, In tg (f_groups f) -> exists n x, nth_error type_names (fst tg) = Some n
       /\ load num show ru f m (txt n) (txt "particle_ids") = Ok (Some x)
       /\ avals (u_arr (m_array x)) = concat (map (fun nd => if String.eqb (fst nd) "particle_ids" then ds_vals (snd nd) else []) (snd tg))).
    { intros (t, g) Hg. cbn [fst snd].
      destruct (nth_error type_names t) as [n|] eqn:N.
      2:{ apply nth_error_None in N. assert (t < 8) by (apply (ff_small f ok); now apply (in_map fst) in Hg). cbn in N. lia. }
      destruct (ff_fields f ok t g Hg) as (Un & Mh).
      assert (I : In "particle_ids"%string (map fst g)) by (apply Mh; left; cbn; tauto).
      apply in_map_iff in I. destruct I as ((q, d) & Eq & Hd). cbn [fst] in Eq. subst q.
      destruct (proj1 (C107_loads te dt c show ru fz num extra _ w f k m B A C X O t n N) g _ d Hg Hd) as (x & Lx & _ & Vx & _).
      exists n, x. split; [reflexivity|]. split; [exact Lx|]. rewrite Vx. clear - Un Hd.
      induction g as [|[u y] r IH]; [destruct Hd|]. inversion Un as [|? ? U1 U2]; subst. cbn [fst] in U1. cbn [map concat fst snd].
      destruct Hd as [Hd|Hd].
      - injection Hd as -> ->. rewrite String.eqb_refl.
        assert (E : concat (map (fun nd : string * dset => if String.eqb (fst nd) "particle_ids" then ds_vals (snd nd) else []) r) = []).
        { clear - U1. induction r as [|[u y] r IH]; [reflexivity|]. cbn [map concat fst snd] in *.
          destruct (String.eqb_spec u "particle_ids") as [->|]; [destruct U1; now left|]. apply IH. intro H. apply U1. now right. }
        now rewrite E, app_nil_r.
      - destruct (String.eqb_spec u "particle_ids") as [->|]; [destruct U1; now apply (in_map fst) in Hd|]. cbn [app]. now apply IH. }
    clear - G. induction (f_groups f) as [|tg r IH]; cbn [map]; constructor; [apply G; now left|]. apply IH. intros. apply G. now right.
  - intro Hm. destruct B as (Hl & i & st' & Hw & Hr). now apply (C31_ids_consecutive fz l i w st' f Hl Hw Hr).
Qed.

(** An extra header can make the file unreadable: counts that are one number. *)
Theorem C107_extra_counts_refuted : forall text_error is_date cosmology_ok fz num l w f,
  written_by fz l w f ->
  exists e, open_metadata text_error is_date cosmology_ok (hdf num [(txt "NumPart_ThisFile", HNum 1%Q)] f) = Err e.
Proof.
  intros te d c fz num l w f B. pose proof (by_fine _ _ _ _ B) as ok.
  destruct (open_metadata te d c (hdf num [(txt "NumPart_ThisFile", HNum 1%Q)] f)) as [[k m]|e] eqn:O; [|eauto]. exfalso.
  pose proof (header_found num [(txt "NumPart_ThisFile", HNum 1%Q)] f ok) as H.
  apply (C77_kind _ _ _ _ _ _ _ H) in O. destruct O as (R & [(M & K)|(s & v & V & _)]); [|discriminate].
  assert (k = KSnapshot) by (cbn in K; congruence). subst k. clear K M.
  destruct (proj1 (C77_accepts_iff te d c KSnapshot _ _ H) (ex_intro _ m R)) as (_ & _ & _ & (gs & (t & pos & T & _) & _) & _).
  destruct T as [T|(_ & T)]; discriminate.
Qed.

(** ... or take particles away: with an empty table of types the particles are in the file but cannot be seen. *)
Theorem C107_extra_hides_refuted : forall text_error is_date cosmology_ok show ru fz num l w f,
  written_by fz l w f ->
  exists m, open_metadata text_error is_date cosmology_ok (hdf num [(txt "CanHaveTypes", HArr [])] f) = Ok (KSnapshot, m)
  /\ forall n field, load num show ru f m n field = Err AttributeError.
Proof.
  intros te d c show ru fz num l w f B. pose proof (by_fine _ _ _ _ B) as ok.
  set (ex := [(txt "CanHaveTypes", HArr [])]).
  pose proof (header_found num ex f ok) as H. set (h := merged _ _) in H.
  assert (L : listed KSnapshot (hdf num ex f) h []).
  { exists [], []. split; [left; reflexivity|]. split; [constructor|]. split; [|constructor].
    intro i. split; [intros []|]. intros (x & E & _). destruct i; discriminate. }
  assert (Hk : header_ok h).
  { unfold header_ok, if_there, has, missing, h, ex. cbn. repeat split; intros; try discriminate;
      match goal with E : Some _ = Some _ |- _ => injection E as <- end; cbn; try discriminate; exact I. }
  assert (R : exists m, read_metadata te d c KSnapshot (hdf num ex f) = Ok m).
  { apply (C77_accepts_iff te d c KSnapshot _ h H). split; [intros key data []|]. split; [exact Hk|]. split; [exact I|].
    split; [exists []; split; [exact L|constructor]|]. exists false. split; [|discriminate].
    unfold cosmological, cosmology_in. rewrite (not_there num ex f ok) by (cbn; tauto). reflexivity. }
  destruct R as (m & R). exists m. split.
  { apply (C77_kind te d c _ h _ _ H). split; [exact R|]. left. split; reflexivity. }
  intros n field. unfold load. destruct (dict_get m (n ++ txt "_properties")) as [v|] eqn:E; [|reflexivity]. exfalso.
  destruct (C78_groups _ _ _ _ _ _ _ R H) as (gs & Lg & _ & _ & G).
  destruct (G (n ++ txt "_properties") v) as (g & n' & gm & Hg & _); [exists n; reflexivity|exact E|].
  destruct Lg as (t & pos & T & _ & P & F). destruct T as [T|(T & _)]; [|discriminate].
  assert (E0 : dict_get h (txt "CanHaveTypes") = Some (HArr [])) by reflexivity. unfold has in T.
  assert (t = []) by congruence. subst t.
  destruct F as [|i g' pos gs']; [destruct Hg|]. destruct (proj1 (P i)) as (x & X & _); [now left|]. destruct i; discriminate.
Qed.

(** ... or change the type of the file. *)
Theorem C107_extra_type_refuted : forall text_error is_date cosmology_ok fz num l w f,
  written_by fz l w f ->
  exists e, open_metadata text_error is_date cosmology_ok (hdf num [(txt "OutputType", HStr (txt "FOF"))] f) = Err e.
Proof.
  intros te d c fz num l w f B. pose proof (by_fine _ _ _ _ B) as ok.
  set (ex := [(txt "OutputType", HStr (txt "FOF"))]).
  destruct (open_metadata te d c (hdf num ex f)) as [[k m]|e] eqn:O; [|eauto]. exfalso.
  pose proof (header_found num ex f ok) as H.
  apply (C77_kind _ _ _ _ _ _ _ H) in O. destruct O as (R & [(M & K)|(s & v & V & Hv & K)]); [discriminate|].
  assert (s = txt "FOF"). { assert (E0 : dict_get (merged (standard_header num f) ex) (txt "OutputType") = Some (HStr (txt "FOF"))) by reflexivity.
    unfold has in V. rewrite E0 in V. destruct Hv as [<-|[<-|[]]]; congruence. }
  subst s. assert (k = KFOF) by (cbn in K; congruence). subst k.
  destruct (proj1 (C77_accepts_iff te d c KFOF _ _ H) (ex_intro _ m R)) as (_ & _ & _ & (gs & Lg & F) & _).
  cbn in Lg. subst gs. inversion F as [|? ? (_ & gi & Gi & _) _]; subst.
  apply (group_found num ex f ok) in Gi. destruct Gi as [(E & _)|[(E & _)|(t & fs & _ & E)]]; discriminate.
Qed.

(** A file with one particle of dark matter, and a run name. *)
Definition rational (x : R) : Q := if Req_EM_T x (1 / 2) then 1 # 2 else if Req_EM_T x 1 then 1 else 0.

Definition run_header : dict := [(txt "RunName", HStr (txt "Test")); (txt "Time", HArr [3#2])].

Example C107_example : exists w f m x,
  written_by false (make1 ++ assign1) w f /\ leaves_alone run_header /\ can_be_read run_header /\ exact_labels rational f
  /\ open_metadata ValueError no_date fine (hdf rational run_header f) = Ok (KSnapshot, m)
  /\ populated w 1 /\ ids_missing w
  /\ load rational (fun _ => []) (fun u => u) f m (txt "dark_matter") (txt "coordinates") = Ok (Some x)
  /\ meaning x = cgs pos1 /\ cgs pos1 = [50%R; 100%R; 150%R].
Proof.
  destruct (write_history1 false) as (st' & f & g & H & Ha & Hu & M0 & M1 & Hg & (ax & Hax & Ix) & (ay & Hay & Iy)).
  assert (Hw : nth_error (writers (wrun false init (make1 ++ assign1))) 0 = Some writer1')
    by (rewrite history1_state; reflexivity).
  assert (B : written_by false (make1 ++ assign1) writer1' f) by (split; [exact shaped1|eauto]).
  assert (A : leaves_alone run_header).
  { intros k Hk. cbn in Hk. repeat (destruct Hk as [<-|Hk]; [reflexivity|]). destruct Hk. }
  assert (C : can_be_read run_header).
  { unfold can_be_read, if_there, has. cbn. repeat split; intros; try discriminate. 
    match goal with E : Some _ = Some _ |- _ => injection E as <- end. discriminate. }
  assert (X : exact_labels rational f).
  { split.
    - rewrite Ha. unfold rational. destruct (Req_EM_T (1/2) (1/2)) as [_|N]; [unfold Q2R; cbn; lra|contradiction].
    - assert (Z : forall t g name d, In (t, g) (f_groups f) -> In (name, d) g -> at_a (ds_attrs d) = 0%R \/ at_a (ds_attrs d) = 1%R).
      { clear - H. rewrite history1_state in H. unfold write in H. cbn [nth_error writers] in H.
        destruct (to_write _ writer1' ptypes) as [[names gen]|] eqn:Et; [|discriminate].
        vm_compute in Et. injection Et as <- <-. cbn [generate_ids] in H.
        rewrite (setter_generated _ 0 writer1' 1 1 1) in H by (reflexivity || lia).
        cbn -[write_file arange wrap_plain set_field writer1'] in H. injection H as _ H.
        subst f. cbn [f_groups]. intros t g name d [Hg|[]] Hd.
        assert (Eg := f_equal snd Hg). cbn [snd] in Eg. subst g. clear Hg.
        assert (W : forall b e, e = 0%R \/ e = 1%R -> written_exponent false b e = 0%R \/ written_exponent false b e = 1%R).
        { intros b e He. unfold written_exponent. destruct (Reqb e 0); [destruct b; cbn; auto|auto]. }
        repeat (destruct Hd as [Hd|Hd]; [assert (Ed := f_equal snd Hd); cbn [snd] in Ed; subst d; cbn [ds_attrs at_a]; apply W; auto|]).
        destruct Hd. }
      intros t g' name d H1 H2. unfold rational.
      destruct (Z t g' name d H1 H2) as [E|E]; rewrite E.
      + destruct (Req_EM_T 0 (1/2)); [lra|]. destruct (Req_EM_T 0 1); [lra|]. unfold Q2R. cbn. lra.
      + destruct (Req_EM_T 1 (1/2)); [lra|]. destruct (Req_EM_T 1 1); [|contradiction]. unfold Q2R. cbn. lra. }
  destruct (C107_opens ValueError no_date fine false rational run_header _ writer1' f B A C) as (m & O & _).
  assert (N : nth_error type_names 1 = Some "dark_matter"%string) by reflexivity.
  assert (Ne : "coordinates"%string <> "particle_ids"%string) by discriminate.
  assert (No : Forall no_mutation (make1 ++ assign1)) by (repeat constructor).
  destruct (proj1 (C107_loads ValueError no_date fine (fun _ => []) (fun u => u) false rational run_header _ writer1' f _ m B A C X O 1 _ N)
     g "coordinates"%string _ Hg Ix) as (x & Lx & Ux & _ & Vx & Fx & _ & Cx & _).
  exists writer1', f, m, x. split; [exact B|]. split; [exact A|]. split; [exact C|]. split; [exact X|]. split; [exact O|].
  split. { exists "coordinates"%string, d_length. split; [cbn; auto|]. discriminate. }
  split.
  { exists 1%nat. split; [cbn; auto|]. split; [|reflexivity]. exists "coordinates"%string, d_length. split; [cbn; auto|]. discriminate. }
  split; [exact Lx|]. split; [|exact cgs_pos1]. rewrite cgs_pos1.
  unfold meaning, phys. rewrite Ux, Vx, Fx, Cx. cbn -[Rpower Rmult Rdiv IZR base_unit].
  assert (Ea : at_a ax = 1%R).
  { cbn -[Rpower Rmult Rdiv IZR base_unit] in Hax. injection Hax as <-. cbn [at_a]. unfold written_exponent, Reqb.
    destruct (Req_EM_T 1 0); [lra|reflexivity]. }
  assert (One : forall q x, x = 1%R -> (if Qeq_bool q 0 then 1%R else upow x q) = 1%R).
  { intros q y ->. destruct (Qeq_bool q 0); [reflexivity|apply upow_1]. }
  rewrite Hu. cbn [uM uL ut uT uI]. rewrite !One by reflexivity. rewrite base_unit_sys1, Ea, Ha, half_1.
  repeat (apply f_equal2; [field|]). reflexivity.
Qed.

Print Assumptions C107_opens.
Print Assumptions C107_dictionaries.
Print Assumptions C107_attributes.
Print Assumptions C107_numbers.
Print Assumptions C107_fields.
Print Assumptions C107_bare_header.
Print Assumptions C107_loads.
Print Assumptions C107_round_trip.
Print Assumptions C107_ids.
Print Assumptions C107_extra_counts_refuted.
Print Assumptions C107_extra_hides_refuted.
Print Assumptions C107_extra_type_refuted.

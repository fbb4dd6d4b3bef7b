(** C130: what the texts say. *)
From Coq Require Import String List ZArith Bool Decimal DecimalString DecimalNat DecimalFacts Lia Ascii.
From Verif Require Import Base PrintModel.
Import ListNotations.
Open Scope string_scope.

(** Strings: cancelling. *)
Lemma app_cancel_l : forall s t u, s ++ t = s ++ u -> t = u.
Proof. induction s as [|c s IH]; intros t u E; [exact E|]. cbn [append] in E. injection E as E. auto. Qed.
Lemma app_length : forall s t, String.length (s ++ t) = (String.length s + String.length t)%nat.
Proof. induction s as [|c s IH]; intro t; cbn; [reflexivity|]. rewrite IH. reflexivity. Qed.
Lemma app_assoc_s : forall s t u, (s ++ t) ++ u = s ++ t ++ u.
Proof. induction s as [|c s IH]; intros t u; cbn; [reflexivity|]. rewrite IH. reflexivity. Qed.
Lemma app_split : forall s s' t t', String.length t = String.length t' -> s ++ t = s' ++ t' -> s = s' /\ t = t'.
Proof.
  induction s as [|c s IH]; intros [|c' s'] t t' L E; cbn [append] in E.
  - auto.
  - subst t. cbn [String.length] in L. rewrite app_length in L. lia.
  - subst t'. cbn [String.length] in L. rewrite app_length in L. lia.
  - injection E as -> E. destruct (IH s' t t' L E) as (-> & ->). auto.
Qed.

(** The text of an array shows its frame and unyt's text, whatever that is. *)
Definition last4 (cm : option bool) : string := match cm with Some true => "ing)" | None => "set)" | Some false => "cal)" end.
Definition rest (cm : option bool) : string := match cm with Some true => " (Comov" | None => " (Physical/comoving not " | Some false => " (Physi" end.
Theorem C130_str : forall s s' cm cm', array_str s cm = array_str s' cm' -> s = s' /\ cm = cm'.
Proof.
  intros s s' cm cm' E.
  assert (D : forall s cm, array_str s cm = (s ++ rest cm) ++ last4 cm) by (intros u [[]|]; unfold array_str; rewrite app_assoc_s; reflexivity).
  rewrite !D in E. apply app_split in E; [|destruct cm as [[]|], cm' as [[]|]; reflexivity]. destruct E as (E & F).
  assert (cm = cm') as <- by (destruct cm as [[]|], cm' as [[]|]; try reflexivity; discriminate).
  split; [|reflexivity]. apply app_split in E; [|reflexivity]. apply E.
Qed.
(** So does [array2string], if unyt's text does not end like a frame; it does not tell arrays without a frame otherwise. *)
Definition ends_like_frame (s : string) : Prop := exists t, s = t ++ " (comoving)" \/ s = t ++ " (physical)".
Theorem C130_array2string : forall s s' cm cm', ~ ends_like_frame s -> ~ ends_like_frame s' ->
  array2string s cm = array2string s' cm' -> s = s' /\ cm = cm'.
Proof.
  assert (N : forall s, s ++ "" = s) by (induction s as [|c s IH]; cbn; [|rewrite IH]; reflexivity).
  intros s s' cm cm' H H' E. unfold array2string in E. destruct cm as [[]|], cm' as [[]|]; rewrite ?N in E;
    try (apply app_split in E; [|reflexivity]; destruct E as (E & F); try discriminate; auto);
    try (exfalso; apply H; exists s'; auto; fail); try (exfalso; apply H'; exists s; auto; fail).
  auto.
Qed.

(** Names that hold neither commas nor the end of the file's name can be read off the texts. *)
Fixpoint no_char (c : ascii) (s : string) : Prop := match s with EmptyString => True | String d s' => d <> c /\ no_char c s' end.
Lemma no_char_split : forall c s s' t t', no_char c s -> no_char c s' -> s ++ String c t = s' ++ String c t' -> s = s' /\ t = t'.
Proof.
  intros c. induction s as [|d s IH]; intros [|d' s'] t t' H H' E; cbn [append] in E; injection E; cbn [no_char] in *.
  - auto.
  - intros _ Q. destruct H' as (N & _). congruence.
  - intros _ Q. destruct H as (N & _). congruence.
  - intros E' ->. destruct (IH s' t t') as (-> & ->); tauto.
Qed.
Lemma no_char_only : forall c s s' t', no_char c s -> s = s' ++ String c t' -> False.
Proof.
  intros c s s' t'. revert s. induction s' as [|d s' IH]; intros s H ->; cbn in H; [tauto|]. destruct H as (_ & H). eapply IH; [exact H|reflexivity].
Qed.
Theorem C130_join : forall l m, Forall (no_char ",") l -> Forall (no_char ",") m -> l <> [] -> m <> [] ->
  join ", " l = join ", " m -> l = m.
Proof.
  induction l as [|x l IH]; intros m Hl Hm Nl Nm E; [congruence|]. destruct m as [|y m]; [congruence|].
  inversion Hl as [|? ? X L]; subst. inversion Hm as [|? ? Y M]; subst. destruct l as [|x' l], m as [|y' m].
  - cbn in E. congruence.
  - exfalso. cbn [join] in E. apply (no_char_only "," x y (String " " (join ", " (y' :: m))) X). exact E.
  - exfalso. cbn [join] in E. apply (no_char_only "," y x (String " " (join ", " (x' :: l))) Y). symmetry. exact E.
  - change (x ++ String "," (String " " (join ", " (x' :: l))) = y ++ String "," (String " " (join ", " (y' :: m)))) in E.
    apply no_char_split in E; [|assumption|assumption]. destruct E as (-> & E). injection E as E. f_equal. apply IH; auto; discriminate.
Qed.
Definition one_line (s : string) : Prop := no_char "010" s.
Lemma text_file : forall f f' t t', one_line f -> one_line f' -> f ++ ". " ++ String "010" t = f' ++ ". " ++ String "010" t' -> f = f' /\ t = t'.
Proof.
  intros f f' t t' H H' E. assert (Q : forall g, one_line g -> one_line (g ++ ". ")).
  { induction g as [|c g IH]; cbn; [intros _; repeat split; discriminate|]. intros (A & B). split; [exact A|]. apply IH, B. }
  rewrite <- !app_assoc_s in E. apply no_char_split in E; [|apply Q; assumption|apply Q; assumption].
  destruct E as (E & ->). apply app_split in E; [|reflexivity]. destruct E as (-> & _). auto.
Qed.
Theorem C130_dataset : forall f f' l l', one_line f -> one_line f' -> Forall (no_char ",") l -> Forall (no_char ",") l' -> l <> [] -> l' <> [] ->
  (group_text f l = group_text f' l' -> f = f' /\ l = l') /\ (file_text f l = file_text f' l' -> f = f' /\ l = l')
  /\ group_text f l <> file_text f' l'.
Proof.
  intros f f' l l' F F' L L' N N'.
  assert (J : forall t t', one_line f -> one_line f' -> "SWIFT dataset at " ++ f ++ ". " ++ String "010" t = "SWIFT dataset at " ++ f' ++ ". " ++ String "010" t' -> f = f' /\ t = t').
  { intros t t' _ _ E. apply app_cancel_l in E. apply text_file in E; assumption. }
  split; [|split].
  - intro E. apply J in E; [|assumption|assumption]. destruct E as (-> & E). split; [reflexivity|]. injection E as E. apply C130_join; assumption.
  - intro E. apply J in E; [|assumption|assumption]. destruct E as (-> & E). split; [reflexivity|]. injection E as E. apply C130_join; assumption.
  - intro E. apply J in E; [|assumption|assumption]. destruct E as (_ & E). discriminate.
Qed.
Theorem C130_dataset_case :
  group_text "a.hdf5" ["coordinates"; "masses"] = "SWIFT dataset at a.hdf5. " ++ String "010" "Available fields: coordinates, masses"
  /\ file_text "a.hdf5" ["gas"; "stars"] = "SWIFT dataset at a.hdf5. " ++ String "010" "Available groups: gas, stars".
Proof. split; reflexivity. Qed.
(** A dataset without groups and one with a nameless group look the same. *)
Theorem C130_no_groups_refuted : exists f l l', l <> l' /\ file_text f l = file_text f l'.
Proof. exists "f.hdf5", [], [""]. split; [discriminate|reflexivity]. Qed.

(** Mapping tables: the numbers of rows and of columns, if there are rows. *)
Lemma digits : forall n, Nat.to_uint n <> Nil.
Proof. intros n E. pose proof (Unsigned.of_to n) as Q. rewrite E in Q. cbn in Q. subst n. discriminate. Qed.
Lemma dec_inj : forall n m, dec n = dec m -> n = m.
Proof.
  intros n m E. unfold dec in E. apply (f_equal NilZero.uint_of_string) in E.
  rewrite !NilZero.usu in E; [|apply digits|apply digits]. injection E as E.
  apply (f_equal Nat.of_uint) in E. rewrite !Unsigned.of_to in E. exact E.
Qed.
Theorem C130_mapping : forall A x y (data : list (list A)),
  (data = [] -> mapping_text x y data = Err IndexError)
  /\ forall row t, data = row :: t -> mapping_text x y data
       = Ok ("Mapping table from " ++ x ++ " to " ++ y ++ ", containing " ++ dec (S (length t)) ++ " by " ++ dec (length row) ++ " elements.").
Proof. intros A x y data. split; [intros ->; reflexivity|]. intros row t ->. reflexivity. Qed.
Theorem C130_numbers : forall n m, dec n = dec m -> n = m.
Proof. exact dec_inj. Qed.

(** Named columns: as many as names; equal exactly if names and name are. *)
Lemma names_eqb_eq : forall l m, names_eqb l m = true <-> l = m.
Proof.
  induction l as [|x l IH]; intros [|y m]; cbn; split; try congruence. 
  - intro E. apply andb_true_iff in E. destruct E as (A & B). apply String.eqb_eq in A. apply IH in B. congruence.
  - intro E. injection E as -> ->. rewrite String.eqb_refl. apply IH. reflexivity.
Qed.
Theorem C130_columns : forall c d, (columns_eq c d = true <-> c_names c = c_names d /\ c_name c = c_name d)
  /\ columns_len c = length (c_names c) /\ (columns_eq c d = true -> columns_len c = columns_len d).
Proof.
  intros c d. assert (E : columns_eq c d = true <-> c_names c = c_names d /\ c_name c = c_name d).
  { unfold columns_eq. rewrite andb_true_iff, names_eqb_eq, String.eqb_eq. reflexivity. }
  split; [exact E|]. split; [reflexivity|]. intro H. apply E in H. destruct H as (H & _). unfold columns_len. congruence.
Qed.
(** So fields of different particle types, with different data, are equal if their names are. *)
Theorem C130_columns_refuted : exists c d, c_path c <> c_path d /\ columns_eq c d = true.
Proof.
  exists (mkcolumns "PartType0/ElementMassFractions" ["hydrogen"; "helium"] "element_mass_fractions"),
         (mkcolumns "PartType4/ElementMassFractions" ["hydrogen"; "helium"] "element_mass_fractions"). split; [discriminate|reflexivity].
Qed.

Example C130_case : array_str "[1 2] Mpc" (Some true) = "[1 2] Mpc (Comoving)" /\ array2string "[1 2] Mpc" (Some false) = "[1 2] Mpc (physical)"
  /\ array_str "[1 2] Mpc" None = "[1 2] Mpc (Physical/comoving not set)" /\ array2string "[1 2] Mpc" None = "[1 2] Mpc"
  /\ join ", " ["gas"; "stars"] = "gas, stars" /\ Forall (no_char ",") ["gas"; "stars"] /\ one_line "f.hdf5"
  /\ file_text "f.hdf5" ["gas"; "stars"] = "SWIFT dataset at f.hdf5. " ++ String "010" "Available groups: gas, stars"
  /\ mapping_text "Dust" "Elements" [[1; 2; 3]; [4; 5; 6]]%Z = Ok "Mapping table from Dust to Elements, containing 2 by 3 elements."
  /\ statistics_text "s.txt" ["a"; "b"] = "Statistics file: s.txt, containing fields: a, b"
  /\ group_metadata_text "PartType0" "gas" = "Metadata class for PartType0 (gas)" /\ mass_table_text ["gas"; "stars"] = "Mass table for gas stars"
  /\ columns_text "['h']" (mkcolumns "p" ["h"] "x") = "Named columns instance with ['h'] available for ""x"""
  /\ dec 1030 = "1030" /\ dec 0 = "0".
Proof.
  repeat match goal with |- _ /\ _ => split end; try reflexivity.
  - repeat constructor; discriminate.
  - cbn. repeat split; discriminate.
Qed.
Print Assumptions C130_str.
Print Assumptions C130_array2string.
Print Assumptions C130_join.
Print Assumptions C130_dataset.
Print Assumptions C130_dataset_case.
Print Assumptions C130_no_groups_refuted.
Print Assumptions C130_mapping.
Print Assumptions C130_numbers.
Print Assumptions C130_columns.
Print Assumptions C130_columns_refuted.

(** Statistics files (properties C75 and C76). *)
From Coq Require Import String List ZArith Lia Bool Ascii.
From Verif Require Import Base BaseLemmas StatsModel StatsSpec StatsProofs.
Import ListNotations.
Open Scope nat_scope.

(** C75: the reader inverts the layout.  For a file made of remarks, column descriptions, a line of
    names and data, with column names that differ and as many names and items on the first line of
    data as columns, the reader succeeds exactly with one attribute for each column, named by the line of
    names, with the unit and label of the description and the values of the column. *)
Theorem C75_round_trip {U F I} (dimensionless : U) (parse_unit : string -> string -> option U)
  (parse_float : string -> option F) (parse_int : string -> option I) (zero_float : F) (zero_int : I)
  remarks cs us g body toks first rest items attrs :
  Forall plain_comment remarks -> Forall desc_ok cs -> Forall2 (unit_of dimensionless parse_unit) cs us ->
  NoDup (map cd_name cs) ->
  (g = EmptyString \/ gap g) -> names_line body toks ->
  plain_comment (String "#"%char (g ++ body)%string) -> starts_hash first = false -> spells first items ->
  length toks = length cs -> length items = length cs ->
  read_statistics dimensionless parse_unit parse_float parse_int zero_float zero_int
    (stats_file remarks cs (String "#"%char (g ++ body)%string) (first :: rest)) = Ok attrs <->
  length attrs = length cs /\
  forall j c u tok item, nth_error cs j = Some c -> nth_error us j = Some u -> nth_error toks j = Some tok ->
    nth_error items j = Some item ->
    exists a, nth_error attrs j = Some a /\ at_name a = attribute_name tok /\ at_unit a = u /\
      at_label a = cd_name c /\
      column_of parse_float parse_int zero_float zero_int j (first :: rest) item (at_values a).
Proof. intros. now apply (read_file _ _ _ _ _ _ remarks cs us _ toks g body first rest items attrs). Qed.

(** C75: an attribute can be looked up unless a later one has its name; other names are not there. *)
Theorem C75_access {U F I} (attrs : list (@attribute U F I)) j a :
  nth_error attrs j = Some a -> (forall k b, j < k -> nth_error attrs k = Some b -> at_name b <> at_name a) ->
  get_attribute (at_name a) attrs = Some a.
Proof. apply get_attribute_spec. Qed.

Theorem C75_access_none {U F I} (attrs : list (@attribute U F I)) name :
  get_attribute name attrs = None <-> forall a, In a attrs -> at_name a <> name.
Proof. apply get_attribute_none. Qed.

(** C75: a unit that cannot be read is an error. *)
Theorem C75_bad_unit {U F I} (dimensionless : U) (parse_unit : string -> string -> option U)
  (parse_float : string -> option F) (parse_int : string -> option I) (zero_float : F) (zero_int : I)
  remarks cs us c pad value unit rest :
  Forall plain_comment remarks -> Forall desc_ok (cs ++ [c]) -> Forall2 (unit_of dimensionless parse_unit) cs us ->
  NoDup (map cd_name cs) -> cd_unit c = Some (pad, value, unit) -> value <> "dimensionless"%string ->
  parse_unit value unit = None ->
  read_statistics dimensionless parse_unit parse_float parse_int zero_float zero_int
    (remarks ++ flat_map desc_lines (cs ++ [c]) ++ rest) = Err ValueError.
Proof.
  intros. unfold read_statistics. now rewrite (read_bad_unit dimensionless parse_unit remarks cs us c pad value unit rest).
Qed.

(** C75: the single description line. *)
Theorem C75_name_line c : desc_ok c -> match_name (name_line c) = Some (cd_name c).
Proof. apply match_name_spec. Qed.

Theorem C75_unit_line pad value unit : spaces pad -> word value -> each (fun x => x <> newline) unit ->
  match_name (unit_line (pad, value, unit)) = None /\
  match_unit (unit_line (pad, value, unit)) = Some (value, unit).
Proof. apply match_unit_spec. Qed.

Lemma expect_inv : forall w s r, expect w s = Some r -> s = (w ++ r)%string.
Proof.
  induction w as [|c w IH]; intros s r H; cbn [expect] in H.
  - injection H as ->. reflexivity.
  - destruct s as [|c' s]; [discriminate|]. destruct (Ascii.eqb_spec c c') as [->|]; [|discriminate].
    cbn [append]. f_equal. now apply IH.
Qed.
Lemma span_inv : forall f s a b, span f s = (a, b) ->
  s = (a ++ b)%string /\ each (fun c => f c = true) a /\ begins (fun c => f c = false) b.
Proof.
  induction s as [|c s IH]; intros a b H; cbn [span] in H.
  - injection H as <- <-. repeat split.
  - destruct (f c) eqn:E.
    + destruct (span f s) as [a' b'] eqn:S. injection H as <- <-. destruct (IH _ _ eq_refl) as (-> & Ha & Hb).
      repeat split; assumption.
    + injection H as <- <-. repeat split. exact E.
Qed.

(** C75: which lines name a column, and which tell a unit. *)
Theorem C75_says_name : forall s n, match_name s = Some n <-> says_name s n.
Proof.
  intros s n. unfold match_name, says_name. split.
  - destruct (expect "# (" s) as [s1|] eqn:E1; [|discriminate]. apply expect_inv in E1. subst s.
    destruct (span is_digit s1) as [d s2] eqn:S1. apply span_inv in S1. destruct S1 as (-> & Hd & _).
    destruct (expect ") " s2) as [s3|] eqn:E2; [|discriminate]. apply expect_inv in E2. subst s2.
    destruct (span (fun c => Ascii.eqb c space) s3) as [p s4] eqn:S2. apply span_inv in S2. destruct S2 as (-> & Hp & Hb).
    destruct (span _ s4) as [n' r] eqn:S3. apply span_inv in S3. destruct S3 as (-> & Hn & Hr). cbn [fst].
    intros H. injection H as <-. exists d, p, r. split; [reflexivity|]. split; [exact Hd|]. split.
    { eapply each_weaken; [|exact Hp]. intros c Hc. now apply Ascii.eqb_eq. }
    split.
    { eapply each_weaken; [|exact Hn]. intros c Hc. cbn in Hc. apply negb_true_iff, orb_false_iff in Hc.
      destruct Hc as (H1 & H2). apply Ascii.eqb_neq in H1. apply Ascii.eqb_neq in H2. tauto. }
    split.
    { eapply begins_weaken; [|exact Hb]. intros c Hc. now apply Ascii.eqb_neq. }
    eapply begins_weaken; [|exact Hr]. intros c Hc. cbn in Hc. apply negb_false_iff, orb_true_iff in Hc.
    destruct Hc as [Hc|Hc]; apply Ascii.eqb_eq in Hc; auto.
  - intros (d & p & r & -> & Hd & Hp & Hn & Hb & Hr). rewrite expect_app.
    rewrite span_app; [|exact Hd|reflexivity]. rewrite expect_app.
    rewrite span_app.
    + rewrite span_app; [reflexivity| |].
      * eapply each_weaken; [|exact Hn]. intros c (H1 & H2). apply negb_true_iff, orb_false_iff.
        split; now apply Ascii.eqb_neq.
      * eapply begins_weaken; [|exact Hr]. intros c Hc. apply negb_false_iff, orb_true_iff.
        destruct Hc as [->| ->]; auto.
    + eapply each_weaken; [|exact Hp]. intros c ->. reflexivity.
    + eapply begins_weaken; [|exact Hb]. intros c Hc. now apply Ascii.eqb_neq.
Qed.

Theorem C75_says_unit : forall s v u, match_unit s = Some (v, u) <-> says_unit s v u.
Proof.
  intros s v u. unfold match_unit, says_unit. split.
  - destruct (expect "#" s) as [s1|] eqn:E1; [|discriminate]. apply expect_inv in E1. subst s.
    destruct (span (fun c => Ascii.eqb c space) s1) as [p s2] eqn:S1. apply span_inv in S1. destruct S1 as (-> & Hp & _).
    destruct (expect "Unit = " s2) as [s3|] eqn:E2; [|discriminate]. apply expect_inv in E2. subst s2.
    destruct (span _ s3) as [v' s4] eqn:S2. apply span_inv in S2. destruct S2 as (-> & Hv & Hb).
    destruct (is_empty v') eqn:Ev; [discriminate|].
    assert (Hw : word v').
    { split; [intros ->; discriminate|]. eapply each_weaken; [|exact Hv]. intros c Hc. now apply negb_true_iff in Hc. }
    assert (Hps : spaces p) by (eapply each_weaken; [|exact Hp]; intros c Hc; now apply Ascii.eqb_eq).
    destruct (expect " " s4) as [s5|] eqn:E3.
    + apply expect_inv in E3. subst s4. destruct (span _ s5) as [u' r] eqn:S3. apply span_inv in S3.
      destruct S3 as (-> & Hu & Hr). cbn [fst]. intros H. injection H as <- <-.
      exists p, " "%string, r. split; [reflexivity|]. split; [exact Hps|]. split; [exact Hw|].
      split.
      { eapply each_weaken; [|exact Hu]. intros c Hc. apply negb_true_iff in Hc. now apply Ascii.eqb_neq. }
      split; [|auto]. eapply begins_weaken; [|exact Hr]. intros c Hc. apply negb_false_iff in Hc. now apply Ascii.eqb_eq.
    + destruct (span _ s4) as [u' r] eqn:S3. apply span_inv in S3.
      destruct S3 as (-> & Hu & Hr). cbn [fst]. intros H. injection H as <- <-.
      exists p, EmptyString, r. split; [reflexivity|]. split; [exact Hps|]. split; [exact Hw|].
      split.
      { eapply each_weaken; [|exact Hu]. intros c Hc. apply negb_true_iff in Hc. now apply Ascii.eqb_neq. }
      split; [eapply begins_weaken; [|exact Hr]; intros c Hc; apply negb_false_iff in Hc; now apply Ascii.eqb_eq|].
      right. split; [reflexivity|]. destruct (u' ++ r)%string as [|c w]; [exact Logic.I|]. cbn [begins] in *.
      apply negb_false_iff in Hb. split; [exact Hb|]. intros ->. cbn in E3. discriminate.
  - intros (p & sep & r & -> & Hp & (Hne & Hv) & Hu & Hr & Hs). rewrite expect_app.
    rewrite span_app; [|eapply each_weaken; [|exact Hp]; intros c ->; reflexivity|reflexivity].
    rewrite expect_app. rewrite span_app.
    + destruct (is_empty v) eqn:Ev; [destruct v; [congruence|discriminate]|].
      assert (Hsp : span (fun c => negb (Ascii.eqb c newline)) (u ++ r) = (u, r)).
      { apply span_app.
        - eapply each_weaken; [|exact Hu]. intros c Hc. apply negb_true_iff. now apply Ascii.eqb_neq.
        - eapply begins_weaken; [|exact Hr]. intros c ->. reflexivity. }
      destruct Hs as [-> | (-> & Hb)].
      * rewrite expect_app. rewrite Hsp. reflexivity.
      * cbn [append]. replace (expect " " (u ++ r)) with (@None string).
        -- rewrite Hsp. reflexivity.
        -- destruct (u ++ r)%string as [|c w]; [reflexivity|]. cbn [begins] in Hb. destruct Hb as (_ & Hb).
           cbn [expect]. destruct (Ascii.eqb_spec " "%char c) as [<-|]; [exfalso; apply Hb; reflexivity|reflexivity].
    + eapply each_weaken; [|exact Hv]. intros c Hc. now apply negb_true_iff.
    + destruct Hs as [-> | (-> & Hb)]; [reflexivity|]. cbn [append]. eapply begins_weaken; [|exact Hb].
      intros c (Hc & _). now apply negb_false_iff.
Qed.

(** C75: a file of comments alone is refused. *)
Theorem C75_no_data {U F I} (dimensionless : U) (parse_unit : string -> string -> option U)
  (parse_float : string -> option F) (parse_int : string -> option I) (zero_float : F) (zero_int : I) lines :
  Forall (fun s => starts_hash s = true) lines ->
  exists e, read_statistics dimensionless parse_unit parse_float parse_int zero_float zero_int lines = Err e.
Proof.
  intros H. unfold read_statistics.
  destruct (read_all_comments dimensionless parse_unit lines (mk_header [] [] None) 0 H) as [e ->]. cbn. eauto.
Qed.

(** C76: the columns.  The first line says how many columns there are and which are floating point; every
    line then gives one value to every column, zero where it has no item. *)
Theorem C76_columns {F I} (parse_float : string -> option F) (parse_int : string -> option I)
  (zero_float : F) (zero_int : I) first rest items cols :
  spells first items ->
  list_of_strings_to_arrays parse_float parse_int zero_float zero_int (first :: rest) = Ok cols <->
  length cols = length items /\
  forall j item, nth_error items j = Some item ->
    exists c, nth_error cols j = Some c /\
              column_of parse_float parse_int zero_float zero_int j (first :: rest) item c.
Proof. apply arrays_spec. Qed.

(** C76: every line has words, and only one list of them. *)
Theorem C76_words s : exists l, spells s l /\ split_space s = l /\ forall l', spells s l' -> l' = l.
Proof.
  exists (split_space s). split; [apply spells_exists|]. split; [reflexivity|].
  intros l' H. symmetry. now apply spells_split.
Qed.

(** C76: what fails: no line at all, or a word that is no number. *)
Theorem C76_errors {F I} (parse_float : string -> option F) (parse_int : string -> option I)
  (zero_float : F) (zero_int : I) lines e :
  list_of_strings_to_arrays parse_float parse_int zero_float zero_int lines = Err e ->
  (lines = nil /\ e = IndexError) \/ (lines <> nil /\ e = ValueError).
Proof.
  assert (S1 : forall i v c x, store parse_float parse_int i v c = Err x -> x = ValueError).
  { intros i v [l|l] x; cbn [store]; [destruct (parse_float v)|destruct (parse_int v)]; congruence. }
  assert (S2 : forall i cols items x, store_line parse_float parse_int i items cols = Err x -> x = ValueError).
  { intros i cols. induction cols as [|c cols IH]; intros [|v items] x; cbn [store_line]; try discriminate.
    destruct (store parse_float parse_int i v c) eqn:Ec; cbn [bind]; [|intros [= <-]; exact (S1 _ _ _ _ Ec)].
    destruct (store_line parse_float parse_int i items cols) eqn:Er; cbn [bind]; [discriminate|]. intros [= <-]. exact (IH _ _ Er). }
  assert (S3 : forall ls i cols x, store_lines parse_float parse_int i ls cols = Err x -> x = ValueError).
  { intro ls. induction ls as [|l ls IH]; intros i cols x; cbn [store_lines]; [discriminate|].
    destruct (store_line parse_float parse_int i (split_space l) cols) eqn:El; cbn [bind]; [apply IH|]. intros [= <-]. exact (S2 _ _ _ _ El). }
  destruct lines as [|l ls]; cbn [list_of_strings_to_arrays]; intro H; [left|right]; (split; [congruence|]).
  - congruence.
  - exact (S3 _ _ _ _ H).
Qed.

(** C76: the characters meant by these words: blanks, digits and small letters. *)
Theorem C76_characters c :
  (is_space c = true <-> In (nat_of_ascii c) [9; 10; 11; 12; 13; 28; 29; 30; 31; 32]) /\
  (is_digit c = true <-> In c (list_ascii_of_string "0123456789")) /\
  (In (c, to_lower c) (combine (list_ascii_of_string "ABCDEFGHIJKLMNOPQRSTUVWXYZ")
                               (list_ascii_of_string "abcdefghijklmnopqrstuvwxyz")) \/
   (to_lower c = c /\ ~ In c (list_ascii_of_string "ABCDEFGHIJKLMNOPQRSTUVWXYZ"))).
Proof.
  assert (D : forall (P : ascii -> bool), forallb P (map ascii_of_nat (seq 0 256)) = true -> P c = true).
  { intros P H. rewrite forallb_forall in H. apply H. rewrite in_map_iff. exists (nat_of_ascii c).
    split; [apply ascii_nat_embedding|]. apply in_seq. split; [lia|].
    destruct c as [[] [] [] [] [] [] [] []]; vm_compute; lia. }
  assert (In_nat : forall n l, In n l <-> existsb (Nat.eqb n) l = true).
  { intros n l. rewrite existsb_exists. split; [intros H; exists n; split; [exact H|apply Nat.eqb_refl]|].
    intros (x & H & E). apply Nat.eqb_eq in E. now subst. }
  assert (In_char : forall x l, In x l <-> existsb (Ascii.eqb x) l = true).
  { intros x l. rewrite existsb_exists. split; [intros H; exists x; split; [exact H|apply Ascii.eqb_refl]|].
    intros (y & H & E). apply Ascii.eqb_eq in E. now subst. }
  split; [|split].
  - rewrite In_nat. apply eq_iff_eq_true. apply eqb_prop.
    now apply (D (fun c => Bool.eqb (is_space c) (existsb (Nat.eqb (nat_of_ascii c)) [9; 10; 11; 12; 13; 28; 29; 30; 31; 32]))).
  - rewrite In_char. apply eq_iff_eq_true. apply eqb_prop.
    now apply (D (fun c => Bool.eqb (is_digit c) (existsb (Ascii.eqb c) (list_ascii_of_string "0123456789")))).
  - pose (ups := list_ascii_of_string "ABCDEFGHIJKLMNOPQRSTUVWXYZ").
    pose (los := list_ascii_of_string "abcdefghijklmnopqrstuvwxyz").
    assert (E : existsb (fun p => Ascii.eqb c (fst p) && Ascii.eqb (to_lower c) (snd p)) (combine ups los)
                || (Ascii.eqb (to_lower c) c && negb (existsb (Ascii.eqb c) ups)) = true).
    { now apply (D (fun c => existsb (fun p => Ascii.eqb c (fst p) && Ascii.eqb (to_lower c) (snd p)) (combine ups los)
                || (Ascii.eqb (to_lower c) c && negb (existsb (Ascii.eqb c) ups)))). }
    apply orb_true_iff in E as [E|E].
    + left. apply existsb_exists in E as ([x y] & H & E). apply andb_true_iff in E as [E1 E2].
      apply Ascii.eqb_eq in E1, E2. cbn in E1, E2. now subst.
    + right. apply andb_true_iff in E as [E1 E2]. apply Ascii.eqb_eq in E1. split; [exact E1|].
      rewrite In_char. apply negb_true_iff in E2. unfold ups in E2. congruence.
Qed.

(** * Examples and refutations

    Units are kept as text; so are numbers, where a text with a full stop is no integer. *)
Definition t_unit (value unit : string) : option string := Some (value ++ " " ++ unit)%string.
Definition t_float (s : string) : option string := Some s.
Definition t_int (s : string) : option string := if has_char "."%char s then None else Some s.
Definition t_read : list string -> res (list (@attribute string string string)) :=
  read_statistics "dimensionless"%string t_unit t_float t_int "0.0"%string "0"%string.
Definition t_columns : list string -> res (list (@column string string)) :=
  list_of_strings_to_arrays t_float t_int "0.0"%string "0"%string.

Definition nl : string := String newline EmptyString.
Open Scope string_scope.
Definition ln (s : string) : string := s ++ nl.

Definition ex_cols : list col_desc :=
  [ mk_col_desc "0" "  " "Simulation step" (ln ". ") (Some (" ", "dimensionless", "")) [];
    mk_col_desc "1" "  " "Time since Big Bang" (ln ". ") (Some (" ", "9.778131e+05", "Myr")) [ln "# More."] ]%list.

Definition ex_lines : list string :=
  stats_file [(ln "# Statistics")] ex_cols (ln "#  Step  Time B.B.") [(ln "  1  0.5"); (ln "  2  7")]%list.

Example ex_reads :
  t_read ex_lines = Ok [ mk_attribute "step" "dimensionless" "Simulation step" (Ints ["1"; "2"]);
                         mk_attribute "time_bb" "9.778131e+05 Myr" "Time since Big Bang" (Floats ["0.5"; "7"]) ]%list.
Proof. vm_compute. reflexivity. Qed.

(** The hypotheses of [C75_round_trip] hold here. *)
Example ex_descriptions : Forall desc_ok ex_cols /\ NoDup (map cd_name ex_cols) /\
  Forall2 (unit_of "dimensionless" t_unit) ex_cols ["dimensionless"; "9.778131e+05 Myr"]%list.
Proof.
  assert (W : forall s, s <> "" -> each (fun c => is_space c = false) s -> word s) by (intros; split; assumption).
  split; [|split].
  - repeat (apply Forall_cons; [|]); [| |apply Forall_nil].
    + unfold desc_ok; cbn. repeat split; try discriminate; try (left; reflexivity); try constructor;
        injection H as <- <- <-; cbn; repeat split; discriminate.
    + unfold desc_ok; cbn. repeat split; try discriminate; try (left; reflexivity);
        try (injection H as <- <- <-; cbn; repeat split; discriminate).
      repeat constructor.
  - repeat constructor; cbn; intuition discriminate.
  - repeat constructor.
Qed.

Example ex_names : names_line (ln "Step  Time B.B.") ["Step"; "Time B.B."]%list.
Proof.
  assert (W : forall s, s <> "" -> each (fun c => is_space c = false) s -> word s) by (intros; split; assumption).
  change (ln "Step  Time B.B.") with ("Step" ++ "  " ++ ("Time B.B." ++ nl)).
  apply nl_more; [constructor; apply W; cbn; [discriminate|tauto]|split; cbn; [auto|lia]|].
  apply nl_last; [|right; left; reflexivity].
  change "Time B.B." with ("Time" ++ String " " "B.B.").
  apply phrase_more; [apply W; cbn; [discriminate|tauto]|reflexivity|constructor; apply W; cbn; [discriminate|tauto]].
Qed.

Example ex_words : split_space (ln "  1  0.5") = ["1"; "0.5"]%list.
Proof. reflexivity. Qed.

(** A line of names that starts after one blank: the first attribute has an underscore in front. *)
Theorem C75_single_blank_refuted :
  ~ (forall tok rest, word tok -> exists more,
       line_names ("# " ++ tok ++ rest) = (attribute_name tok :: more)%list).
Proof.
  intros H. destruct (H "Step" "  Time") as [more E]; [split; [discriminate|cbn; tauto]|].
  vm_compute in E. discriminate.
Qed.

(** Two columns of the same name: the unit of the last one is given to both. *)
Theorem C75_repeated_name_refuted :
  ~ (forall cs us g body toks first rest items attrs,
       Forall desc_ok cs -> Forall2 (unit_of "dimensionless" t_unit) cs us ->
       (g = "" \/ gap g) -> names_line body toks -> plain_comment (String "#"%char (g ++ body)) ->
       starts_hash first = false -> spells first items ->
       length toks = length cs -> length items = length cs ->
       t_read (stats_file [] cs (String "#"%char (g ++ body)) (first :: rest)) = Ok attrs ->
       forall j u a, nth_error us j = Some u -> nth_error attrs j = Some a -> at_unit a = u)%list.
Proof.
  assert (W : forall s, s <> "" -> each (fun c => is_space c = false) s -> word s) by (intros; split; assumption).
  intros H.
  specialize (H [mk_col_desc "0" "" "Mass" nl (Some ("", "1", "g")) []; mk_col_desc "1" "" "Mass" nl (Some ("", "1", "kg")) []]%list
                ["1 g"; "1 kg"]%list "" "A  B" ["A"; "B"]%list "1 2" []%list ["1"; "2"]%list
                [mk_attribute "a" "1 kg" "Mass" (Ints ["1"]); mk_attribute "b" "1 kg" "Mass" (Ints ["2"])]%list).
  assert (E : forall j u (a : @attribute string string string), nth_error ["1 g"; "1 kg"]%list j = Some u ->
            nth_error [mk_attribute "a" "1 kg" "Mass" (Ints ["1"]); mk_attribute "b" "1 kg" "Mass" (Ints ["2"])]%list j = Some a ->
            at_unit a = u).
  { apply H.
    - repeat (apply Forall_cons; [|]); [| |apply Forall_nil]; unfold desc_ok; cbn; repeat split; try discriminate;
        try (right; reflexivity); try constructor; injection H0 as <- <- <-; cbn; repeat split; discriminate.
    - repeat constructor.
    - now left.
    - change "A  B" with ("A" ++ "  " ++ "B"). apply nl_more; [constructor; apply W; cbn; [discriminate|tauto]|split; cbn; [auto|lia]|].
      change "B" with ("B" ++ ""). apply nl_last; [constructor; apply W; cbn; [discriminate|tauto]|now left].
    - repeat split.
    - reflexivity.
    - change "1 2" with ("" ++ "1" ++ " 2"). constructor; [exact Logic.I|apply W; cbn; [discriminate|tauto]|reflexivity|].
      change " 2" with (" " ++ "2" ++ ""). constructor; [cbn; auto|apply W; cbn; [discriminate|tauto]|exact Logic.I|].
      constructor. exact Logic.I.
    - reflexivity.
    - reflexivity.
    - vm_compute. reflexivity. }
  specialize (E 0 "1 g" _ eq_refl eq_refl). discriminate.
Qed.

(** A file that starts with data takes the attribute names from its last line. *)
Theorem C75_no_header_refuted :
  exists lines, Forall (fun s => starts_hash s = false) lines /\
    line_names (line_before lines 0) <> []%list /\ t_read lines = Ok []%list.
Proof.
  exists ["1 2"; " 7  8"]%list. split; [repeat constructor|]. split; [vm_compute; discriminate|reflexivity].
Qed.

(** A blank line at the end is a row of zeros. *)
Theorem C76_blank_line_refuted :
  ~ (forall lines cols, t_columns lines = Ok cols -> t_columns (lines ++ [nl])%list = Ok cols).
Proof. intros H. specialize (H ["1 2.0"]%list _ eq_refl). vm_compute in H. discriminate. Qed.

(** The first line decides: a column whose first value is written as an integer refuses a fraction later. *)
Theorem C76_first_line_refuted :
  ~ (forall lines, lines <> []%list -> (forall s, In s lines -> exists v, spells s [v]%list /\ t_float v <> None) ->
       exists cols, t_columns lines = Ok cols).
Proof.
  intros H. destruct (H ["1"; "1.5"]%list) as [cols E]; [discriminate| |vm_compute in E; discriminate].
  intros s Hs. exists s. split; [|discriminate].
  assert (E : spells ("" ++ s ++ "") [s]%list); [|cbn [append] in E; now rewrite app_text_nil in E].
  constructor; [exact Logic.I| |exact Logic.I|constructor; exact Logic.I].
  destruct Hs as [<-|[<-|[]]]; (split; [discriminate|cbn; tauto]).
Qed.

(** Whether a first value is floating point is told from a full stop or a small e alone. *)
Theorem C76_float_words_refuted :
  Forall (fun v => ~ looks_float v) ["nan"; "inf"; "1E5"]%list.
Proof.
  repeat constructor; rewrite <- is_float_spec; vm_compute; discriminate.
Qed.

Print Assumptions C75_round_trip.
Print Assumptions C75_access.
Print Assumptions C75_access_none.
Print Assumptions C75_bad_unit.
Print Assumptions C75_name_line.
Print Assumptions C75_unit_line.
Print Assumptions C75_says_name.
Print Assumptions C75_says_unit.
Print Assumptions C75_no_data.
Print Assumptions C76_columns.
Print Assumptions C76_errors.
Print Assumptions C76_words.
Print Assumptions C76_characters.
Print Assumptions C75_single_blank_refuted.
Print Assumptions C75_repeated_name_refuted.
Print Assumptions C75_no_header_refuted.
Print Assumptions C76_blank_line_refuted.
Print Assumptions C76_first_line_refuted.
Print Assumptions C76_float_words_refuted.

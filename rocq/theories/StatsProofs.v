(** Proofs about statistics files. *)
From Coq Require Import String List ZArith Lia Bool Ascii.
From Verif Require Import Base BaseLemmas StatsModel StatsSpec.
Import ListNotations.
Open Scope nat_scope.

(** * Text *)

Lemma app_text_nil s : (s ++ "")%string = s.
Proof. induction s as [|c s IH]; [reflexivity|]. cbn. now rewrite IH. Qed.

Lemma app_text_assoc a b c : ((a ++ b) ++ c)%string = (a ++ (b ++ c))%string.
Proof. induction a as [|x a IH]; [reflexivity|]. cbn. now rewrite IH. Qed.

Lemma length_app_text a b : String.length (a ++ b)%string = String.length a + String.length b.
Proof. induction a as [|x a IH]; [reflexivity|]. cbn. now rewrite IH. Qed.

Lemma each_app P a b : each P (a ++ b)%string <-> each P a /\ each P b.
Proof. induction a as [|x a IH]; cbn; [tauto|]. rewrite IH. tauto. Qed.

Lemma is_empty_app_r a c : is_empty (a ++ String c "")%string = false.
Proof. destruct a; reflexivity. Qed.

Lemma expect_app w s : expect w (w ++ s)%string = Some s.
Proof. induction w as [|c w IH]; [reflexivity|]. cbn. now rewrite Ascii.eqb_refl. Qed.

Lemma span_app f a b : each (fun c => f c = true) a -> begins (fun c => f c = false) b ->
  span f (a ++ b)%string = (a, b).
Proof.
  intros Ha Hb. induction a as [|c a IH]; cbn.
  - destruct b as [|c b]; [reflexivity|]. cbn in *. now rewrite Hb.
  - destruct Ha as [Hc Ha]. rewrite Hc, IH by assumption. reflexivity.
Qed.

Lemma begins_weaken (P Q : ascii -> Prop) s : (forall c, P c -> Q c) -> begins P s -> begins Q s.
Proof. intros H. destruct s; cbn; auto. Qed.

Lemma each_weaken (P Q : ascii -> Prop) s : (forall c, P c -> Q c) -> each P s -> each Q s.
Proof. intros H. induction s; cbn; intuition. Qed.

(** * Words *)

Lemma split_at_blank : forall w s, blank w -> split_at EmptyString (w ++ s)%string = split_at EmptyString s.
Proof. induction w as [|c w IH]; intros s H; [reflexivity|]. destruct H as [Hc H]. cbn. rewrite Hc. cbn. now apply IH. Qed.

Lemma split_at_word : forall x cur s, each (fun c => is_space c = false) x ->
  split_at cur (x ++ s)%string = split_at (cur ++ x)%string s.
Proof.
  induction x as [|c x IH]; intros cur s H; cbn; [now rewrite app_text_nil|].
  destruct H as [Hc H]. rewrite Hc, IH by assumption. now rewrite app_text_assoc.
Qed.

Lemma split_at_cut cur rest : cur <> EmptyString -> begins (fun c => is_space c = true) rest ->
  split_at cur rest = cur :: split_at EmptyString rest.
Proof.
  intros Hc Hr. destruct rest as [|c s]; cbn.
  - destruct cur; [congruence|reflexivity].
  - cbn in Hr. rewrite Hr. destruct cur; [congruence|]. reflexivity.
Qed.

Lemma spells_split s l : spells s l -> split_space s = l.
Proof.
  unfold split_space. induction 1 as [w Hw|w x rest l Hw [Hx Hx'] Hr Hs IH].
  - rewrite <- (app_text_nil w), split_at_blank by assumption. reflexivity.
  - rewrite split_at_blank, split_at_word by assumption. cbn [append]. rewrite split_at_cut by assumption. now rewrite IH.
Qed.

Lemma spells_total : forall n s, String.length s <= n -> exists l, spells s l.
Proof.
  induction n as [|n IH]; intros s Hn.
  - destruct s; [|cbn in Hn; lia]. exists []. constructor. exact I.
  - assert (Hsp : exists w r, s = (w ++ r)%string /\ blank w /\ begins (fun c => is_space c = false) r).
    { clear. induction s as [|c s (w & r & -> & Hw & Hr)]; [exists EmptyString, EmptyString; cbn; auto|].
      destruct (is_space c) eqn:E; [exists (String c w), r; cbn; auto|].
      exists EmptyString, (String c (w ++ r)). cbn. auto. }
    assert (Hwd : forall s, exists x r, s = (x ++ r)%string /\ each (fun c => is_space c = false) x /\ begins (fun c => is_space c = true) r).
    { clear. induction s as [|c s (w & r & -> & Hw & Hr)]; [exists EmptyString, EmptyString; cbn; auto|].
      destruct (is_space c) eqn:E; [exists EmptyString, (String c (w ++ r)); cbn; auto|].
      exists (String c w), r. cbn. auto. }
    destruct Hsp as (w & r & -> & Hw & Hr). destruct r as [|c r].
    + exists []. constructor. now rewrite app_text_nil.
    + destruct (Hwd (String c r)) as (x & r' & E & Hx & Hr'). rewrite E in *.
      assert (Hne : x <> EmptyString).
      { intros ->. cbn in E. subst r'. cbn in Hr, Hr'. congruence. }
      destruct (IH r') as [l Hl].
      { rewrite !length_app_text in Hn. destruct x; [congruence|]. cbn in Hn. lia. }
      exists (x :: l). constructor; auto. now split.
Qed.

Lemma spells_exists s : spells s (split_space s).
Proof. destruct (spells_total _ s (le_n _)) as [l Hl]. now rewrite (spells_split _ _ Hl). Qed.

(** * Names *)

Lemma wide_blank : forall g cur run s, blank g ->
  split_wide_at cur run (g ++ s)%string = split_wide_at cur (run ++ g)%string s.
Proof.
  induction g as [|c g IH]; intros cur run s H; cbn; [now rewrite app_text_nil|].
  destruct H as [Hc H]. rewrite Hc, IH by assumption. now rewrite app_text_assoc.
Qed.

Lemma wide_word : forall x cur s, each (fun c => is_space c = false) x ->
  split_wide_at cur EmptyString (x ++ s)%string = split_wide_at (cur ++ x)%string EmptyString s.
Proof.
  induction x as [|c x IH]; intros cur s H; cbn; [now rewrite app_text_nil|].
  destruct H as [Hc H]. rewrite Hc, IH by assumption. now rewrite app_text_assoc.
Qed.

Lemma wide_word_run x cur run s : word x -> String.length run < 2 ->
  split_wide_at cur run (x ++ s)%string = split_wide_at (cur ++ run ++ x)%string EmptyString s.
Proof.
  intros [Hne Hx] Hrun. destruct x as [|c x]; [congruence|]. destruct Hx as [Hc Hx].
  cbn [append split_wide_at]. rewrite Hc. destruct (Nat.leb_spec 2 (String.length run)); [lia|].
  rewrite wide_word by assumption. now rewrite !app_text_assoc.
Qed.

Lemma wide_phrase p : phrase p -> forall cur run s, String.length run < 2 ->
  split_wide_at cur run (p ++ s)%string = split_wide_at (cur ++ run ++ p)%string EmptyString s.
Proof.
  induction 1 as [x Hx|x c p Hx Hc Hp IH]; intros cur run s Hrun; [now apply wide_word_run|].
  rewrite app_text_assoc, wide_word_run by assumption. cbn [append split_wide_at]. rewrite Hc. cbn [append].
  rewrite IH by (cbn; lia). f_equal. rewrite !app_text_assoc. reflexivity.
Qed.

Lemma phrase_begins p : phrase p -> exists c p', p = String c p' /\ is_space c = false.
Proof.
  intros H. assert (exists x r, word x /\ p = (x ++ r)%string) as (x & r & [Hne Hx] & ->).
  { destruct H as [x Hx|x c p Hx _ _]; [exists x, EmptyString; now rewrite app_text_nil|eauto]. }
  destruct x as [|c x]; [congruence|]. exists c, (x ++ r)%string. split; [reflexivity|apply Hx].
Qed.

Lemma names_begin s l : names_line s l -> exists c s', s = String c s' /\ is_space c = false.
Proof.
  intros [p e Hp _|p g r l' Hp _ _]; destruct (phrase_begins p Hp) as (c & p' & -> & Hc); cbn [append]; eauto.
Qed.

Lemma wide_gap cur g c s : gap g -> is_space c = false ->
  split_wide_at cur EmptyString (g ++ String c s)%string = cur :: split_wide_at EmptyString EmptyString (String c s).
Proof.
  intros [Hg Hl] Hc. rewrite wide_blank by assumption. cbn [append split_wide_at]. rewrite Hc.
  destruct (Nat.leb_spec 2 (String.length g)); [|lia]. reflexivity.
Qed.

Definition last_piece (p e : string) : list string :=
  match e with
  | EmptyString => [p]
  | String c EmptyString => [(p ++ e)%string]
  | _ => [p; EmptyString]
  end.

Lemma split_names s l : names_line s l ->
  exists front p e, split_wide s = front ++ last_piece p e /\ l = front ++ [p] /\ Forall phrase l /\
    (e = EmptyString \/ e = String newline EmptyString \/ gap e).
Proof.
  unfold split_wide. induction 1 as [p e Hp He|p g rest l Hp Hg Hn (front & p' & e & IH & -> & HF & He)].
  - exists [], p, e. split; [|auto]. rewrite wide_phrase by (auto; cbn; lia). cbn [append app].
    destruct He as [->|[->|[Hb Hl]]]; [cbn; now rewrite app_text_nil|reflexivity|].
    rewrite <- (app_text_nil e) at 1. rewrite wide_blank by assumption. cbn [append split_wide_at].
    destruct (Nat.leb_spec 2 (String.length e)); [|lia].
    destruct e as [|c1 [|c2 e]]; cbn in Hl; try lia. reflexivity.
  - exists (p :: front), p', e. destruct (names_begin _ _ Hn) as (c & s' & -> & Hc).
    rewrite wide_phrase by (auto; cbn; lia). cbn [append]. rewrite wide_gap by assumption.
    rewrite IH. split; [reflexivity|]. split; [reflexivity|]. split; [now constructor|exact He].
Qed.

Lemma snake_attribute : forall s, snake_name s = attribute_name s.
Proof.
  unfold snake_name. induction s as [|c s IH]; [reflexivity|]. cbn [filter_text attribute_name].
  destruct (Ascii.eqb c "."%char) eqn:Ed; cbn [negb orb]; [exact IH|].
  cbn [map_text filter_text].
  destruct (Ascii.eqb_spec c space) as [->|Ns].
  - cbn. f_equal. exact IH.
  - destruct (Ascii.eqb c newline); cbn [negb]; [exact IH|]. cbn [map_text]. f_equal. exact IH.
Qed.

Lemma attribute_newline s : attribute_name (s ++ String newline EmptyString)%string = attribute_name s.
Proof.
  induction s as [|c s IH]; [reflexivity|]. cbn [append attribute_name]. rewrite IH. reflexivity.
Qed.

Lemma phrase_nonempty p : phrase p -> is_empty p = false.
Proof. intros H. destruct (phrase_begins p H) as (c & p' & -> & _). reflexivity. Qed.

Lemma filter_phrases l : Forall phrase l -> filter (fun x => negb (is_empty x)) l = l.
Proof. induction 1 as [|p l Hp _ IH]; [reflexivity|]. cbn. rewrite (phrase_nonempty p Hp). cbn. now rewrite IH. Qed.

Lemma line_names_spec g s l : g = EmptyString \/ gap g -> names_line s l ->
  line_names (String "#"%char (g ++ s)%string) = map attribute_name l.
Proof.
  intros Hg Hn. unfold line_names. cbn [drop_first].
  assert (E : filter (fun x => negb (is_empty x)) (split_wide (g ++ s)%string)
              = filter (fun x => negb (is_empty x)) (split_wide s)).
  { destruct Hg as [->|Hg]; [reflexivity|]. destruct (names_begin _ _ Hn) as (c & s' & -> & Hc).
    unfold split_wide at 1. rewrite wide_gap by assumption. reflexivity. }
  rewrite E. destruct (split_names _ _ Hn) as (front & p & e & -> & -> & HF & He).
  apply Forall_app in HF as [HF HP]. apply Forall_inv in HP.
  rewrite filter_app, filter_phrases by assumption. rewrite !map_app. f_equal.
  - apply map_ext. apply snake_attribute.
  - destruct He as [->|[->|[Hb Hl]]]; cbn [last_piece filter].
    + rewrite (phrase_nonempty p HP). cbn. now rewrite snake_attribute.
    + rewrite is_empty_app_r. cbn. now rewrite snake_attribute, attribute_newline.
    + destruct e as [|c1 [|c2 e]]; cbn in Hl; try lia. cbn [last_piece filter]. rewrite (phrase_nonempty p HP). cbn.
      now rewrite snake_attribute.
Qed.

(** * Header lines *)

Lemma match_name_spec c : desc_ok c -> match_name (name_line c) = Some (cd_name c).
Proof.
  intros (Hn & Hp & Hname & Hb & Hr & _). unfold match_name, name_line. rewrite expect_app.
  rewrite span_app; [|exact Hn|reflexivity]. rewrite expect_app.
  rewrite span_app; [|eapply each_weaken; [|exact Hp]; intros x ->; reflexivity|
    eapply begins_weaken; [|exact Hb]; intros x Hx; destruct (Ascii.eqb_spec x space); [contradiction|reflexivity]].
  rewrite span_app; [reflexivity| |].
  - eapply each_weaken; [|exact Hname]. intros x [H1 H2].
    destruct (Ascii.eqb_spec x "."%char); [contradiction|]. destruct (Ascii.eqb_spec x newline); [contradiction|reflexivity].
  - eapply begins_weaken; [|exact Hr]. cbn. intros x [->| ->]; reflexivity.
Qed.

Lemma match_unit_spec pad value unit : spaces pad -> word value -> each (fun x => x <> newline) unit ->
  match_name (unit_line (pad, value, unit)) = None /\
  match_unit (unit_line (pad, value, unit)) = Some (value, unit).
Proof.
  intros Hp [Hne Hv] Hu. split.
  - unfold match_name, unit_line. destruct pad as [|p1 pad]; [reflexivity|]. destruct Hp as [-> Hp].
    cbn -[append]. destruct pad as [|p2 pad]; [reflexivity|]. destruct Hp as [-> _]. reflexivity.
  - unfold match_unit, unit_line. rewrite expect_app.
    rewrite span_app; [|eapply each_weaken; [|exact Hp]; intros x ->; reflexivity|reflexivity].
    rewrite expect_app. rewrite span_app; [|eapply each_weaken; [|exact Hv]; cbn; intros x ->; reflexivity|reflexivity].
    destruct value as [|v0 value]; [congruence|]. cbn [is_empty]. rewrite expect_app.
    rewrite span_app; [reflexivity| |].
    + eapply each_weaken; [|exact Hu]. intros x Hx. destruct (Ascii.eqb_spec x newline); [contradiction|reflexivity].
    + cbn. reflexivity.
Qed.

Section Reader.
Context {U : Type}.
Variable dimensionless : U.
Variable parse_unit : string -> string -> option U.

Notation step := (header_step dimensionless parse_unit).
Notation rd := (read_header dimensionless parse_unit).

Lemma read_remarks : forall l h n rest, Forall plain_comment l ->
  rd h n (l ++ rest) = rd h (n + length l) rest.
Proof.
  induction l as [|x l IH]; intros h n rest HF; cbn [app length]; [now rewrite Nat.add_0_r|].
  pose proof (Forall_inv HF) as (Hs & Hn & Hu). apply Forall_inv_tail in HF. cbn [read_header]. rewrite Hs.
  unfold header_step. rewrite Hn, Hu. cbn [bind]. rewrite IH by assumption. f_equal. lia.
Qed.

Lemma read_desc c u ns us cur n rest : desc_ok c -> unit_of dimensionless parse_unit c u ->
  exists us', rd (mk_header ns us cur) n (desc_lines c ++ rest)
              = rd (mk_header (ns ++ [cd_name c]) us' (Some (cd_name c))) (n + length (desc_lines c)) rest /\
    get_unit (Some (cd_name c)) us' = Some u /\
    forall k, k <> cd_name c -> get_unit (Some k) us' = get_unit (Some k) us.
Proof.
  intros Hok Hu. pose proof Hok as (_ & _ & _ & _ & _ & Hunit & Hrem).
  assert (Hset : forall (x : U) l, get_unit (Some (cd_name c)) (set_unit (Some (cd_name c)) x l) = Some x).
  { intros x l. cbn. now rewrite String.eqb_refl. }
  assert (Hother : forall k (x : U) l, k <> cd_name c -> get_unit (Some k) (set_unit (Some (cd_name c)) x l) = get_unit (Some k) l).
  { intros k x l N. cbn. destruct (String.eqb_spec k (cd_name c)); [contradiction|reflexivity]. }
  unfold desc_lines. cbn [app]. cbn [read_header]. cbn [starts_hash name_line append].
  change (Ascii.eqb "#" "#") with true. cbn [length].
  unfold header_step at 1. change (String "#" _) with (name_line c) at 1. rewrite match_name_spec by assumption.
  cbn [bind h_names h_units h_current]. unfold unit_of in Hu.
  destruct (cd_unit c) as [[[pad value] unit]|] eqn:Eu.
  - destruct (Hunit _ _ _ eq_refl) as (Hp & Hv & Hun).
    destruct (match_unit_spec pad value unit Hp Hv Hun) as [Mn Mu].
    cbn [app read_header]. replace (starts_hash (unit_line (pad, value, unit))) with true by reflexivity.
    unfold header_step at 1. rewrite Mn, Mu. cbn [h_names h_units h_current].
    destruct (string_dec value "dimensionless") as [->|N].
    + subst u. rewrite String.eqb_refl. cbn [bind]. rewrite read_remarks by assumption.
      eexists. split; [f_equal; cbn [length app]; lia|]. split; [apply Hset|].
      intros k Hk. now rewrite !Hother.
    + destruct (String.eqb_spec value "dimensionless"); [contradiction|]. rewrite Hu. cbn [bind].
      rewrite read_remarks by assumption. eexists. split; [f_equal; cbn [length app]; lia|]. split; [apply Hset|].
      intros k Hk. now rewrite !Hother.
  - subst u. cbn [app]. rewrite read_remarks by assumption. eexists. split; [f_equal; lia|]. split; [apply Hset|].
    intros k Hk. now rewrite Hother.
Qed.

Lemma read_descs : forall cs us0, Forall desc_ok cs -> Forall2 (unit_of dimensionless parse_unit) cs us0 ->
  NoDup (map cd_name cs) -> forall ns us cur n rest,
  exists us' cur', rd (mk_header ns us cur) n (flat_map desc_lines cs ++ rest)
              = rd (mk_header (ns ++ map cd_name cs) us' cur') (n + length (flat_map desc_lines cs)) rest /\
    Forall2 (fun c u => get_unit (Some (cd_name c)) us' = Some u) cs us0 /\
    forall k, ~ In k (map cd_name cs) -> get_unit (Some k) us' = get_unit (Some k) us.
Proof.
  induction cs as [|c cs IH]; intros us0 Hok Hus Hnd ns us cur n rest; inversion Hus as [|? u ? us1 Hu Hus' E1 E2]; subst.
  - exists us, cur. cbn [flat_map map app length]. rewrite app_nil_r, Nat.add_0_r. split; [reflexivity|].
    split; [constructor|reflexivity].
  - inversion Hnd as [|? ? Hc Hnd']; subst. pose proof (Forall_inv Hok) as Hok1. apply Forall_inv_tail in Hok.
    cbn [flat_map map]. rewrite <- app_assoc.
    destruct (read_desc c u ns us cur n (flat_map desc_lines cs ++ rest) Hok1 Hu) as (us2 & -> & G1 & G2).
    destruct (IH us1 Hok Hus' Hnd' (ns ++ [cd_name c]) us2 (Some (cd_name c)) (n + length (desc_lines c)) rest)
      as (us3 & cur3 & -> & G3 & G4).
    exists us3, cur3. split; [|split].
    + rewrite <- app_assoc. cbn [app]. f_equal. rewrite app_length. lia.
    + constructor; [|exact G3]. rewrite G4; assumption.
    + intros k Hk. cbn in Hk. rewrite G4 by tauto. apply G2. intros ->. tauto.
Qed.

End Reader.

(** * Columns *)

Section Columns.
Context {F I : Type}.
Variable parse_float : string -> option F.
Variable parse_int : string -> option I.
Variables (zero_float : F) (zero_int : I).

Notation store := (store parse_float parse_int).
Notation store_line := (store_line parse_float parse_int).
Notation store_lines := (store_lines parse_float parse_int).

Lemma has_char_spec c s : has_char c s = true <-> exists a b, s = (a ++ String c b)%string.
Proof.
  induction s as [|x s IH]; cbn.
  - split; [discriminate|]. intros (a & b & H). destruct a; discriminate.
  - rewrite orb_true_iff, IH, Ascii.eqb_eq. split.
    + intros [->|(a & b & ->)]; [exists EmptyString, s; reflexivity|exists (String x a), b; reflexivity].
    + intros (a & b & H). destruct a as [|y a]; injection H as -> ->; [now left|right; eauto].
Qed.

Lemma is_float_spec item : is_float_item item = true <-> looks_float item.
Proof.
  unfold is_float_item, looks_float. rewrite orb_true_iff, !has_char_spec. split.
  - intros [(a & b & H)|(a & b & H)]; exists a, b; auto.
  - intros (a & b & [H|H]); [left|right]; eauto.
Qed.

(** One column through all lines. *)
Fixpoint run {A} (parse : string -> option A) (i j : nat) (lines : list string) (l : list A) : option (list A) :=
  match lines with
  | [] => Some l
  | line :: rest =>
      match nth_error (split_space line) j with
      | Some v => match parse v with Some x => run parse (S i) j rest (upd i x l) | None => None end
      | None => run parse (S i) j rest l
      end
  end.

Lemma upd_at {A} (pre : list A) x y l : upd (length pre) x (pre ++ y :: l) = pre ++ x :: l.
Proof. induction pre as [|z pre IH]; [reflexivity|]. cbn. now rewrite IH. Qed.

Lemma run_spec {A} (parse : string -> option A) zero j : forall lines pre l,
  run parse (length pre) j lines (pre ++ repeat zero (length lines)) = Some l <->
  exists new, l = pre ++ new /\ entries parse zero j lines new.
Proof.
  induction lines as [|line lines IH]; intros pre l; cbn [run length repeat].
  - rewrite app_nil_r. split.
    + intros H. injection H as <-. exists []. split; [now rewrite app_nil_r|constructor].
    + intros (new & -> & Hn). inversion Hn; subst. now rewrite app_nil_r.
  - assert (Hstep : forall x, run parse (S (length pre)) j lines (pre ++ x :: repeat zero (length lines)) = Some l <->
               exists new, l = pre ++ x :: new /\ entries parse zero j lines new).
    { intros x. specialize (IH (pre ++ [x]) l). rewrite app_length in IH. cbn in IH. rewrite Nat.add_1_r in IH.
      rewrite <- app_assoc in IH. cbn [app] in IH. rewrite IH.
      split; intros (new & -> & Hn); exists new; (split; [|exact Hn]); now rewrite <- app_assoc. }
    assert (Hentry : forall x new, entries parse zero j (line :: lines) (x :: new) <->
      match nth_error (split_space line) j with Some v => parse v = Some x | None => x = zero end /\ entries parse zero j lines new).
    { intros x new. unfold entries. split.
      - intros H. inversion H as [|? ? ? ? (items & Hs & Hx) Hf]; subst. apply spells_split in Hs. subst items. auto.
      - intros [H1 H2]. constructor; [|exact H2]. exists (split_space line). split; [apply spells_exists|exact H1]. }
    destruct (nth_error (split_space line) j) as [v|] eqn:Ev; rewrite ?Ev in Hentry.
    + destruct (parse v) as [x|] eqn:Ep.
      * rewrite upd_at, Hstep. split.
        -- intros (new & -> & Hn). exists (x :: new). split; [reflexivity|]. apply Hentry. auto.
        -- intros (new & -> & Hn). destruct new as [|y new]; [inversion Hn|]. apply Hentry in Hn as [E Hn].
           injection E as <-. eauto.
      * split; [discriminate|]. intros (new & -> & Hn). destruct new as [|y new]; [inversion Hn|].
        apply Hentry in Hn as [E _]. congruence.
    + rewrite Hstep. split.
      * intros (new & -> & Hn). exists (zero :: new). split; [reflexivity|]. apply Hentry. auto.
      * intros (new & -> & Hn). destruct new as [|y new]; [inversion Hn|]. apply Hentry in Hn as [-> Hn]. eauto.
Qed.

Definition run_column (i j : nat) (lines : list string) (c : @column F I) : option (@column F I) :=
  match c with
  | Floats l => option_map Floats (run parse_float i j lines l)
  | Ints l => option_map Ints (run parse_int i j lines l)
  end.

Lemma run_column_cons i j line lines c :
  run_column i j (line :: lines) c =
  match nth_error (split_space line) j with
  | Some v => match store i v c with Ok c' => run_column (S i) j lines c' | Err _ => None end
  | None => run_column (S i) j lines c
  end.
Proof.
  destruct c as [l|l]; cbn [run_column run store]; destruct (nth_error (split_space line) j) as [v|]; try reflexivity.
  - cbn. destruct (parse_float v); reflexivity.
  - cbn. destruct (parse_int v); reflexivity.
Qed.

Lemma store_line_spec i : forall cols items cols', store_line i items cols = Ok cols' ->
  length cols' = length cols /\
  forall j c, nth_error cols j = Some c -> exists c', nth_error cols' j = Some c' /\
    match nth_error items j with Some v => store i v c = Ok c' | None => c' = c end.
Proof.
  induction cols as [|c cols IH]; intros items cols' H.
  - destruct items; injection H as <-; (split; [reflexivity|]); intros [|j] c H; discriminate.
  - destruct items as [|v items]; cbn [StatsModel.store_line] in H.
    + injection H as <-. split; [reflexivity|]. intros j c' Hc. exists c'. split; [exact Hc|]. now destruct j.
    + destruct (store i v c) as [c1|] eqn:E1; cbn [bind] in H; [|discriminate].
      destruct (store_line i items cols) as [rest|] eqn:E2; cbn [bind] in H; [|discriminate]. injection H as <-.
      destruct (IH _ _ E2) as [L K]. split; [cbn; now rewrite L|].
      intros [|j] c' Hc; cbn in Hc.
      * injection Hc as <-. exists c1. split; [reflexivity|exact E1].
      * cbn. auto.
Qed.

Lemma store_line_ok i : forall cols items,
  (forall j c v, nth_error cols j = Some c -> nth_error items j = Some v -> exists c', store i v c = Ok c') ->
  exists cols', store_line i items cols = Ok cols'.
Proof.
  induction cols as [|c cols IH]; intros items H; [exists []; destruct items; reflexivity|].
  destruct items as [|v items]; cbn [StatsModel.store_line]; [eauto|].
  destruct (H 0 c v eq_refl eq_refl) as [c1 ->]. cbn [bind].
  destruct (IH items) as [rest ->]; [intros j c' v' H1 H2; exact (H (S j) c' v' H1 H2)|]. cbn [bind]. eauto.
Qed.

Lemma store_lines_spec : forall lines i cols cols', store_lines i lines cols = Ok cols' <->
  length cols' = length cols /\
  forall j c, nth_error cols j = Some c -> exists c', nth_error cols' j = Some c' /\ run_column i j lines c = Some c'.
Proof.
  induction lines as [|line lines IH]; intros i cols cols'; cbn [StatsModel.store_lines].
  - split.
    + intros H. injection H as <-. split; [reflexivity|]. intros j c Hc. exists c. split; [exact Hc|].
      destruct c; reflexivity.
    + intros [L K]. f_equal. apply nth_error_ext'; [now symmetry|]. intros j. destruct (nth_error cols j) as [c|] eqn:E.
      * destruct (K _ _ E) as (c' & -> & Hr). destruct c; cbn in Hr; congruence.
      * symmetry. apply nth_error_None. apply nth_error_None in E. lia.
  - split.
    + destruct (store_line i (split_space line) cols) as [c1|] eqn:E1; cbn [bind]; [|discriminate].
      intros H. apply IH in H as [L K]. destruct (store_line_spec _ _ _ _ E1) as [L1 K1]. split; [lia|].
      intros j c Hc. destruct (K1 _ _ Hc) as (c2 & H2 & Hs). destruct (K _ _ H2) as (c3 & H3 & Hr).
      exists c3. split; [exact H3|]. rewrite run_column_cons. destruct (nth_error (split_space line) j) as [v|].
      * now rewrite Hs.
      * now subst.
    + intros [L K].
      destruct (store_line_ok i cols (split_space line)) as [c1 E1].
      { intros j c v Hc Hv. destruct (K _ _ Hc) as (c' & _ & Hr). rewrite run_column_cons, Hv in Hr.
        destruct (store i v c) as [x|]; [eauto|discriminate]. }
      rewrite E1. cbn [bind]. apply IH. destruct (store_line_spec _ _ _ _ E1) as [L1 K1]. split; [lia|].
      intros j c Hc.
      assert (exists c0, nth_error cols j = Some c0) as [c0 H0].
      { destruct (nth_error cols j) eqn:E; [eauto|]. apply nth_error_None in E.
        assert (j < length c1) by (apply nth_error_Some; congruence). lia. }
      destruct (K1 _ _ H0) as (c2 & H2 & Hs). rewrite H2 in Hc. injection Hc as ->.
      destruct (K _ _ H0) as (c3 & H3 & Hr). exists c3. split; [exact H3|]. rewrite run_column_cons in Hr.
      destruct (nth_error (split_space line) j) as [v|]; [now rewrite Hs in Hr|]. now subst.
Qed.

Lemma run_empty j lines item c :
  run_column 0 j lines (empty_column zero_float zero_int (length lines) item) = Some c <->
  column_of parse_float parse_int zero_float zero_int j lines item c.
Proof.
  unfold empty_column. destruct (is_float_item item) eqn:E; cbn [run_column].
  - apply is_float_spec in E. pose proof (run_spec parse_float zero_float j lines []) as R. cbn [length app] in R.
    split.
    + destruct (run parse_float 0 j lines _) as [l|] eqn:El; cbn; [|discriminate]. intros H. injection H as <-.
      destruct (proj1 (R _) eq_refl) as (new & -> & Hn). split; assumption.
    + destruct c as [l|l]; cbn; intros [H1 H2]; [|contradiction].
      assert (run parse_float 0 j lines (repeat zero_float (length lines)) = Some l) as -> by (apply R; eauto). reflexivity.
  - assert (Hn : ~ looks_float item) by (rewrite <- is_float_spec; congruence).
    pose proof (run_spec parse_int zero_int j lines []) as R. cbn [length app] in R.
    split.
    + destruct (run parse_int 0 j lines _) as [l|] eqn:El; cbn; [|discriminate]. intros H. injection H as <-.
      destruct (proj1 (R _) eq_refl) as (new & -> & Hw). split; assumption.
    + destruct c as [l|l]; cbn; intros [H1 H2]; [contradiction|].
      assert (run parse_int 0 j lines (repeat zero_int (length lines)) = Some l) as -> by (apply R; eauto). reflexivity.
Qed.

Lemma arrays_spec first rest items cols : spells first items ->
  list_of_strings_to_arrays parse_float parse_int zero_float zero_int (first :: rest) = Ok cols <->
  length cols = length items /\
  forall j item, nth_error items j = Some item ->
    exists c, nth_error cols j = Some c /\
              column_of parse_float parse_int zero_float zero_int j (first :: rest) item c.
Proof.
  intros Hs. unfold list_of_strings_to_arrays. rewrite store_lines_spec, (spells_split _ _ Hs), map_length.
  split; intros [L K]; (split; [exact L|]).
  - intros j item Hj. destruct (K j (empty_column zero_float zero_int (length (first :: rest)) item)) as (c & Hc & Hr).
    + now rewrite nth_error_map, Hj.
    + exists c. split; [exact Hc|]. now apply run_empty.
  - intros j c Hc. rewrite nth_error_map in Hc. destruct (nth_error items j) as [item|] eqn:Ej; [|discriminate].
    injection Hc as <-. destruct (K j item Ej) as (c' & H1 & H2). exists c'. split; [exact H1|]. now apply run_empty.
Qed.

End Columns.

(** * Files *)

Section Files.
Context {U F I : Type}.
Variable dimensionless : U.
Variable parse_unit : string -> string -> option U.
Variable parse_float : string -> option F.
Variable parse_int : string -> option I.
Variables (zero_float : F) (zero_int : I).

Lemma zip_spec units : forall (cols : list (@column F I)) names snakes us,
  length cols = length names -> length snakes = length names ->
  Forall2 (fun n (u : U) => get_unit (Some n) units = Some u) names us ->
  exists attrs, zip_attributes cols names snakes units = Ok attrs /\ length attrs = length names /\
    forall j c n s u, nth_error cols j = Some c -> nth_error names j = Some n -> nth_error snakes j = Some s ->
      nth_error us j = Some u -> nth_error attrs j = Some (mk_attribute s u n c).
Proof.
  induction cols as [|c cols IH]; intros [|n names] [|s snakes] us Hl Hs HF; cbn in Hl, Hs; try discriminate.
  - exists []. split; [reflexivity|]. split; [reflexivity|]. intros [|j]; discriminate.
  - inversion HF as [|? u ? us' Hu HF']; subst. cbn [zip_attributes]. rewrite Hu.
    destruct (IH names snakes us') as (attrs & -> & L & K); try lia; [exact HF'|]. cbn [bind].
    eexists. split; [reflexivity|]. split; [cbn; now rewrite L|].
    intros [|j] c' n' s' u' H1 H2 H3 H4; cbn in *; [congruence|]. eauto.
Qed.

Lemma line_before_app a x b : line_before (a ++ x :: b) (length a + 1) = x.
Proof.
  unfold line_before. replace (length a + 1) with (S (length a)) by lia.
  rewrite app_nth2 by lia. rewrite Nat.sub_diag. reflexivity.
Qed.

Lemma Forall2_map_l {A B C} (f : A -> B) (P : B -> C -> Prop) l m :
  Forall2 (fun x y => P (f x) y) l m -> Forall2 P (map f l) m.
Proof. induction 1; constructor; assumption. Qed.

Lemma read_file remarks cs us names toks g body first rest items attrs :
  Forall plain_comment remarks -> Forall desc_ok cs -> Forall2 (unit_of dimensionless parse_unit) cs us ->
  NoDup (map cd_name cs) ->
  names = String "#"%char (g ++ body)%string -> (g = EmptyString \/ gap g) -> names_line body toks ->
  plain_comment names -> starts_hash first = false -> spells first items ->
  length toks = length cs -> length items = length cs ->
  read_statistics dimensionless parse_unit parse_float parse_int zero_float zero_int
    (stats_file remarks cs names (first :: rest)) = Ok attrs <->
  length attrs = length cs /\
  forall j c u tok item, nth_error cs j = Some c -> nth_error us j = Some u -> nth_error toks j = Some tok ->
    nth_error items j = Some item ->
    exists a, nth_error attrs j = Some a /\ at_name a = attribute_name tok /\ at_unit a = u /\
      at_label a = cd_name c /\
      column_of parse_float parse_int zero_float zero_int j (first :: rest) item (at_values a).
Proof.
  intros Hre Hok Hus Hnd Hnames Hg Hbody Hplain Hfirst Hitems Ltok Litem.
  unfold read_statistics, stats_file.
  rewrite read_remarks by assumption.
  destruct (read_descs dimensionless parse_unit cs us Hok Hus Hnd [] [] None (0 + length remarks) (names :: first :: rest))
    as (us' & cur & -> & Hget & _).
  replace (names :: first :: rest) with ([names] ++ first :: rest) by reflexivity.
  rewrite read_remarks by (constructor; [exact Hplain|constructor]). cbn [read_header]. rewrite Hfirst.
  cbn [bind h_names h_units app length].
  set (n := length remarks + length (flat_map desc_lines cs) + 1).
  assert (En : n = length (remarks ++ flat_map desc_lines cs) + 1) by (unfold n; rewrite app_length; lia).
  change (0 + length remarks + length (flat_map desc_lines cs) + 1) with n.
  rewrite app_assoc.
  rewrite En, line_before_app.
  replace (skipn _ _) with (first :: rest).
  2:{ change (names :: first :: rest) with ([names] ++ first :: rest). rewrite app_assoc.
      rewrite skipn_app. rewrite skipn_all2 by (rewrite !app_length; cbn; lia).
      replace (_ - _) with 0 by (rewrite !app_length; cbn; lia). reflexivity. }
  rewrite Hnames, (line_names_spec _ _ _ Hg Hbody).
  pose proof (arrays_spec parse_float parse_int zero_float zero_int first rest items) as A.
  assert (Lus : length us = length cs) by (clear - Hus; induction Hus; cbn; congruence).
  assert (Hget' : Forall2 (fun n u => get_unit (Some n) us' = Some u) (map cd_name cs) us) by (now apply (Forall2_map_l cd_name)).
  split.
  - destruct (list_of_strings_to_arrays _ _ _ _ (first :: rest)) as [cols|] eqn:Ec; cbn [bind]; [|discriminate].
    destruct (proj1 (A cols Hitems) eq_refl) as [Lc Kc].
    destruct (zip_spec us' cols (map cd_name cs) (map attribute_name toks) us) as (attrs' & -> & La & Ka);
      rewrite ?map_length; try lia; [exact Hget'|].
    intros H. injection H as <-. rewrite map_length in La. split; [exact La|].
    intros j c u tok item Hc Hu Ht Hi. destruct (Kc _ _ Hi) as (col & Hcol & Hspec).
    eexists. split; [eapply Ka; [exact Hcol|now rewrite nth_error_map, Hc|now rewrite nth_error_map, Ht|exact Hu]|].
    cbn. auto.
  - intros [La Ka].
    assert (Ec : list_of_strings_to_arrays parse_float parse_int zero_float zero_int (first :: rest) = Ok (map at_values attrs)).
    { apply A; [exact Hitems|]. split; [rewrite map_length; lia|]. intros j item Hi.
      assert (j < length cs) by (rewrite <- Litem; apply nth_error_Some; congruence).
      destruct (nth_error cs j) as [c|] eqn:E1; [|apply nth_error_None in E1; lia].
      destruct (nth_error us j) as [u|] eqn:E2; [|apply nth_error_None in E2; lia].
      destruct (nth_error toks j) as [tok|] eqn:E3; [|apply nth_error_None in E3; lia].
      destruct (Ka _ _ _ _ _ E1 E2 E3 Hi) as (a & Ha & _ & _ & _ & Hcol).
      exists (at_values a). split; [now rewrite nth_error_map, Ha|exact Hcol]. }
    rewrite Ec. cbn [bind].
    destruct (zip_spec us' (map at_values attrs) (map cd_name cs) (map attribute_name toks) us) as (attrs' & -> & La' & Ka');
      rewrite ?map_length; try lia; [exact Hget'|]. rewrite map_length in La'.
    f_equal. apply nth_error_ext'; [lia|]. intros j.
    destruct (nth_error cs j) as [c|] eqn:E1.
    2:{ apply nth_error_None in E1. rewrite (proj2 (nth_error_None attrs j)), (proj2 (nth_error_None attrs' j)) by lia. reflexivity. }
    assert (j < length cs) by (apply nth_error_Some; congruence).
    destruct (nth_error us j) as [u|] eqn:E2; [|apply nth_error_None in E2; lia].
    destruct (nth_error toks j) as [tok|] eqn:E3; [|apply nth_error_None in E3; lia].
    destruct (nth_error items j) as [item|] eqn:E4; [|apply nth_error_None in E4; lia].
    destruct (Ka _ _ _ _ _ E1 E2 E3 E4) as (a & Ha & N1 & N2 & N3 & _).
    rewrite (Ka' j (at_values a) (cd_name c) (attribute_name tok) u); rewrite ?nth_error_map, ?Ha, ?E1, ?E3; try reflexivity; [|exact E2].
    destruct a as [an au al av]. cbn in *. now subst.
Qed.

Lemma get_attribute_spec (attrs : list (@attribute U F I)) : forall j a,
  nth_error attrs j = Some a -> (forall k b, j < k -> nth_error attrs k = Some b -> at_name b <> at_name a) ->
  get_attribute (at_name a) attrs = Some a.
Proof.
  induction attrs as [|b attrs IH]; intros [|j] a Hj Hlast; try discriminate; cbn [get_attribute]; cbn in Hj.
  - injection Hj as ->.
    assert (E : get_attribute (at_name a) attrs = None).
    { clear - Hlast. assert (H : forall b, In b attrs -> at_name b <> at_name a).
      { intros b Hb. apply In_nth_error in Hb as [k Hk]. apply (Hlast (S k)); [lia|exact Hk]. }
      clear Hlast. induction attrs as [|b attrs IH]; [reflexivity|]. cbn in *. rewrite IH by auto.
      destruct (String.eqb_spec (at_name b) (at_name a)) as [E|_]; [|reflexivity]. exfalso. apply (H b); auto. }
    now rewrite E, String.eqb_refl.
  - rewrite (IH j a Hj); [reflexivity|]. intros k b' Hk Hb. apply (Hlast (S k)); [lia|exact Hb].
Qed.

Lemma get_attribute_none (attrs : list (@attribute U F I)) name :
  get_attribute name attrs = None <-> forall a, In a attrs -> at_name a <> name.
Proof.
  induction attrs as [|b attrs IH]; cbn [get_attribute].
  - split; [intros _ a []|reflexivity].
  - destruct (get_attribute name attrs) as [x|].
    + split; [discriminate|]. intros H. assert (Some x = None); [|discriminate]. apply IH. intros a Ha. apply H. now right.
    + destruct (String.eqb_spec (at_name b) name) as [E|N].
      * split; [discriminate|]. intros H. exfalso. apply (H b); [now left|exact E].
      * split; [|reflexivity]. intros _ a [<-|Ha]; [exact N|]. now apply IH.
Qed.

Lemma read_bad_unit remarks cs us c pad value unit rest :
  Forall plain_comment remarks -> Forall desc_ok (cs ++ [c]) -> Forall2 (unit_of dimensionless parse_unit) cs us ->
  NoDup (map cd_name cs) -> cd_unit c = Some (pad, value, unit) -> value <> "dimensionless"%string ->
  parse_unit value unit = None ->
  read_header dimensionless parse_unit (mk_header [] [] None) 0
    (remarks ++ flat_map desc_lines (cs ++ [c]) ++ rest) = Err ValueError.
Proof.
  intros Hre Hok Hus Hnd Eu Hv Hp. apply Forall_app in Hok as [Hok Hc]. apply Forall_inv in Hc.
  rewrite read_remarks by assumption. rewrite flat_map_app, <- app_assoc.
  destruct (read_descs dimensionless parse_unit cs us Hok Hus Hnd [] [] None (0 + length remarks)
              (flat_map desc_lines [c] ++ rest)) as (us' & cur & -> & _ & _).
  cbn [flat_map]. rewrite app_nil_r. unfold desc_lines. rewrite Eu. cbn [app read_header].
  replace (starts_hash (name_line c)) with true by reflexivity.
  unfold header_step at 1. rewrite match_name_spec by assumption. cbn [bind].
  destruct Hc as (_ & _ & _ & _ & _ & Hu & _). destruct (Hu _ _ _ Eu) as (H1 & H2 & H3).
  destruct (match_unit_spec pad value unit H1 H2 H3) as [Mn Mu].
  replace (starts_hash (unit_line (pad, value, unit))) with true by reflexivity.
  unfold header_step at 1. rewrite Mn, Mu. destruct (String.eqb_spec value "dimensionless"); [contradiction|].
  now rewrite Hp.
Qed.

Lemma read_all_comments : forall lines h n, Forall (fun s => starts_hash s = true) lines ->
  exists e, read_header dimensionless parse_unit h n lines = Err e.
Proof.
  induction lines as [|x lines IH]; intros h n HF; cbn [read_header]; [eauto|].
  rewrite (Forall_inv HF). destruct (header_step dimensionless parse_unit h x) as [h'|e]; cbn [bind]; [|eauto].
  apply IH. now apply Forall_inv_tail in HF.
Qed.

End Files.

(** Statements C88 and C89: every error of the texts and every report. *)
From Coq Require Import String Ascii List Arith ZArith QArith Qabs Bool Lia Lqa.
From Verif Require Import Base BaseLemmas NamesModel NamesSpec NamesProofs SubsetModel MetaModel MetaProofs InfoModel InfoSpec InfoProofs InfoTextProofs InfoTheorems InfoErrorSpec.
Import ListNotations.
Open Scope list_scope.
Open Scope Q_scope.

Lemma chain : forall A B (r : res A) (k : A -> res B) (P : pyerr -> Prop) Ps e,
  (forall x, r = Err x <-> P x) -> (forall a, r = Ok a -> (k a = Err e <-> first_error Ps e)) ->
  (bind r k = Err e <-> first_error (P :: Ps) e).
Proof.
  intros A B r k P Ps e H K. destruct r as [a|x] eqn:R; cbn [bind].
  - rewrite (K a eq_refl). split.
    + intro F. apply fe_later; [|exact F]. intros x Px. apply H in Px. discriminate.
    + intro F. inversion F as [P0 l e0 Pe|P0 l e0 N F']; subst; [apply H in Pe; discriminate|exact F'].
  - split.
    + intro E. injection E as <-. apply fe_here. apply H. reflexivity.
    + intro F. inversion F as [P0 l e0 Pe|P0 l e0 N F']; subst; [apply H in Pe; congruence|].
      exfalso. apply (N x). apply H. reflexivity.
Qed.
Lemma chain_end : forall B (b : B) e, Ok b = Err e <-> first_error [] e.
Proof. intros. split; [discriminate|]. intro F. inversion F. Qed.

Lemma group_err : forall log g p e, group_attr log (txt g) (txt p) = Err e <-> missing log g p e.
Proof.
  intros log g p e. unfold group_attr. split.
  - destruct (dict_get log (txt g)) as [v|] eqn:E.
    + destruct v; try (intro H; injection H as <-; apply (mi_kind _ _ _ _ E); discriminate).
      destruct (dict_get d (txt p)) eqn:F; [discriminate|]. intro H; injection H as <-. apply (mi_param _ _ _ d E F).
    + intro H; injection H as <-. apply mi_group. exact E.
  - intros [H|v H N|d H K]; rewrite H; [reflexivity| |rewrite K; reflexivity].
    destruct v; try reflexivity. exfalso. exact (N d eq_refl).
Qed.
Lemma string_err : forall log g p e, format_string log (txt g) (txt p) = Err e <-> no_text log g p e.
Proof.
  intros log g p e. unfold format_string. destruct (group_attr log (txt g) (txt p)) as [h|x] eqn:G; cbn [bind].
  - pose proof G as G'. apply group_attr_iff in G'. split.
    + destruct h; try discriminate; intro H; injection H as <-; (apply (nt_kind _ _ _ _ G'); discriminate).
    + intro H. inversion H as [e0 M|h' Hh N]; subst; [apply group_err in M; congruence|].
      apply group_attr_iff in Hh. assert (h' = h) by congruence. subst. destruct h; try reflexivity. exfalso. exact (N _ eq_refl).
  - split.
    + intro H; injection H as <-. apply nt_missing, group_err. exact G.
    + intro H. inversion H as [e0 M|h' Hh N]; subst; [apply group_err in M; congruence|]. apply group_attr_iff in Hh. congruence.
Qed.
Lemma item_cases : forall h, (no_item h /\ first_item h = Err IndexError) \/ (exists x, first_item h = Ok (VNum x) /\ first_number h x)
  \/ (exists s, first_text h s /\ first_item h = Ok (VHeader (HStr s))).
Proof.
  intros h. unfold no_item, first_item, first_text, first_number, item_at.
  destruct h as [[|x l]|x|[|c s]|[|c s]|[|s l]]; cbn [nth_error option_map]; eauto 12.
Qed.
Lemma item_excl : forall h s, first_text h s -> no_item h -> False.
Proof.
  intros h s [(c & r & -> & _)|(l & ->)] N; unfold no_item in N; destruct N as [N|[(x & N)|[N|[N|N]]]]; discriminate.
Qed.
Lemma text_item : forall h s, first_text h s -> first_item h = Ok (VHeader (HStr s)).
Proof. intros h s [(c & r & -> & ->)|(l & ->)]; reflexivity. Qed.
Lemma empty_item : forall h, no_item h -> first_item h = Err IndexError.
Proof. intros h [->|[(x & ->)|[->|[->| ->]]]]; reflexivity. Qed.
Lemma float_err : forall log p e, format_float log (txt p) = Err e <-> no_float log p e.
Proof.
  intros log p e. unfold format_float. destruct (group_attr log (txt "hydro_scheme") (txt p)) as [h|x] eqn:G; cbn [bind].
  - pose proof G as G'. apply group_attr_iff in G'. split.
    + destruct (item_cases h) as [(N & ->)|[(x & -> & F)|(s & F & ->)]]; cbn [bind]; intro H; try discriminate; injection H as <-.
      * apply (nf_empty _ _ h); assumption.
      * apply (nf_text _ _ h s); assumption.
    + intro H. inversion H as [e0 M|h' Hh N|h' s Hh F]; subst; [apply group_err in M; congruence| |];
        apply group_attr_iff in Hh; assert (h' = h) by congruence; subst.
      * rewrite (empty_item _ N). reflexivity.
      * rewrite (text_item _ _ F). reflexivity.
  - split.
    + intro H; injection H as <-. apply nf_missing, group_err. exact G.
    + intro H. inversion H as [e0 M|h' Hh N|h' s Hh F]; subst; [apply group_err in M; congruence| |]; apply group_attr_iff in Hh; congruence.
Qed.
Lemma int_err : forall i log p e, get_int i log (txt p) = Err e <-> no_int i log p e.
Proof.
  intros i log p e. unfold get_int. destruct (group_attr log (txt "hydro_scheme") (txt p)) as [h|x] eqn:G; cbn [bind].
  - pose proof G as G'. apply group_attr_iff in G'. split.
    + destruct (item_cases h) as [(N & ->)|[(x & -> & F)|(s & F & ->)]]; cbn [bind]; intro H; try discriminate.
      * injection H as <-. apply (ni_empty _ _ _ h); assumption.
      * apply (ni_text _ _ _ h s); assumption.
    + intro H. inversion H as [e0 M|h' Hh N|h' s e0 Hh F I]; subst; [apply group_err in M; congruence| |];
        apply group_attr_iff in Hh; assert (h' = h) by congruence; subst.
      * rewrite (empty_item _ N). reflexivity.
      * rewrite (text_item _ _ F). exact I.
  - split.
    + intro H; injection H as <-. apply ni_missing, group_err. exact G.
    + intro H. inversion H as [e0 M|h' Hh N|h' s e0 Hh F I]; subst; [apply group_err in M; congruence| |]; apply group_attr_iff in Hh; congruence.
Qed.

(** Every text has the error of its first parameter that cannot be had. *)
Theorem C88_errors : forall int_of_text log e,
  (code_info log = Err e <-> first_error (map (no_text log "code") ["Code"; "Git Branch"; "Git Revision"; "Git Date"]%string) e)
  /\ (compiler_info log = Err e <-> first_error (map (no_text log "code") ["Compiler Name"; "Compiler Version"; "MPI library"]%string) e)
  /\ (library_info log = Err e <-> first_error (map (no_text log "code") ["FFTW library version"; "GSL library version"; "HDF5 library version"]%string) e)
  /\ (hydro_info int_of_text log = Err e <-> first_error
        (map (no_text log "hydro_scheme") ["Scheme"; "Kernel function"]%string ++ [no_int int_of_text log "Dimension"]
         ++ map (no_float log) ["Kernel eta"; "Kernel target N_ngb"; "CFL parameter"]%string) e)
  /\ (viscosity_info log = Err e <-> first_error
        (no_text log "hydro_scheme" "Viscosity Model" :: map (no_float log)
          ["Alpha viscosity"; "Viscosity decay length [internal units]"; "Beta viscosity"; "Alpha viscosity (min)"; "Alpha viscosity (max)"]%string) e)
  /\ (diffusion_info log = Err e <-> first_error
        (map (no_float log) ["Diffusion alpha"; "Diffusion beta"; "Diffusion alpha (min)"; "Diffusion alpha (max)"]%string) e).
Proof.
  intros i log e.
  repeat match goal with |- (_ <-> _) /\ _ => split end;
    [unfold code_info|unfold compiler_info|unfold library_info|unfold hydro_info|unfold viscosity_info|unfold diffusion_info]; cbn [map app];
    try change (txt "FFTW" ++ txt " library version") with (txt "FFTW library version");
    try change (txt "GSL" ++ txt " library version") with (txt "GSL library version");
    try change (txt "HDF5" ++ txt " library version") with (txt "HDF5 library version");
    repeat (apply chain; [first [apply string_err|apply float_err|apply int_err]|intros ? _]); apply chain_end.
Qed.

Theorem C88_incomplete_errors : forall log e, partial_snapshot log = Err e <->
  (dict_get log (txt "num_files_per_snapshot") = None /\ e = AttributeError)
  \/ (exists v, dict_get log (txt "num_files_per_snapshot") = Some v /\ (forall l, v <> VHeader (HArr l)) /\ (forall x, v <> VHeader (HNum x)) /\ e = TypeError).
Proof.
  intros log e. unfold partial_snapshot. split.
  - destruct (dict_get log (txt "num_files_per_snapshot")) as [v|]; [|intro H; injection H as <-; left; split; reflexivity].
    intro H. right. exists v. split; [reflexivity|].
    destruct v as [h| | | | | | | | | | | | | | | ]; try (injection H as <-; repeat split; discriminate).
    destruct h; try discriminate; injection H as <-; repeat split; discriminate.
  - intros [(-> & ->)|(v & -> & N1 & N2 & ->)]; [reflexivity|]. destruct v as [h| | | | | | | | | | | | | | | ]; try reflexivity.
    destruct h; try reflexivity; exfalso; [exact (N1 _ eq_refl)|exact (N2 _ eq_refl)].
Qed.

(** * Reports *)
Lemma show4_err : forall u v e, show4 u v = Err e <-> not_shown v e.
Proof.
  intros u v e. split.
  - destruct v as [h|x|x d| | | | | | | | | | | | | ]; cbn [show4]; intro H; try discriminate;
      try (injection H as <-; apply ns_other; discriminate).
    + destruct h; injection H as <-; first [apply ns_str|apply ns_other; discriminate].
    + destruct d; first [discriminate|injection H as <-; apply ns_other; discriminate].
  - intro H. destruct H as [s|v N1 N2 N3]; [reflexivity|]. destruct v as [h|x|x d| | | | | | | | | | | | | ]; cbn [show4]; try reflexivity.
    + destruct h; try reflexivity. exfalso; exact (N3 _ eq_refl).
    + exfalso; exact (N1 _ eq_refl).
    + destruct d; try reflexivity. exfalso; exact (N2 _ eq_refl).
Qed.

Section Reports.
Variable show : mval -> name.
Variable time_unit : name.
Variable wrap : name -> list name.

Lemma decode_iff : forall v s, decode show v = s <-> spoken show v s.
Proof.
  intros v s. split.
  - intros <-. destruct v as [h| | | | | | | | | | | | | | | ]; [|cbn [decode]; first [apply sp_text|apply sp_other; intro; repeat split; discriminate]..].
    destruct h; cbn [decode]; first [apply sp_bytes|apply sp_str|apply sp_other; intro; repeat split; discriminate].
  - intros [t|t|t|w N]; try reflexivity. destruct w as [h| | | | | | | | | | | | | | | ]; try reflexivity.
    + destruct h; try reflexivity; exfalso; destruct (N s0) as (_ & A & B); congruence.
    + exfalso. destruct (N s0) as (A & _). congruence.
Qed.

Lemma truth_ok : forall h b, truth h = Ok b <-> switch h b.
Proof.
  assert (Z : forall x, (is_zero x = true <-> x == 0)) by (intro x; apply Qeq_bool_iff).
  intros h b. split.
  - destruct h as [[|x [|y l]]|x|s|s|[|s [|y l]]]; cbn [truth]; intro H; try discriminate; injection H as <-.
    + destruct (is_zero x) eqn:E; apply sw_flag; constructor; [apply Z; exact E|intro K; apply Z in K; congruence].
    + destruct (is_zero x) eqn:E; apply sw_flag; constructor; [apply Z; exact E|intro K; apply Z in K; congruence].
    + destruct s as [|c s]; [apply sw_off|apply (sw_on c s)]; tauto.
    + destruct s as [|c s]; [apply sw_off|apply (sw_on c s)]; tauto.
    + destruct s as [|c s]; [apply sw_off|apply (sw_on c s)]; tauto.
  - intros [h' b' F|c s h' [->|[->| ->]]|h' [->|[->| ->]]]; try reflexivity. apply flag_truth. exact F.
Qed.
Lemma truth_err : forall h e, truth h = Err e <-> no_switch h /\ e = ValueError.
Proof.
  intros h e. unfold no_switch. split.
  - destruct h as [[|x [|y l]]|x|s|s|[|s [|y l]]]; cbn [truth]; intro H; try discriminate; injection H as <-; split; try reflexivity;
      first [left; eexists; split; [reflexivity|discriminate]|right; eexists; split; [reflexivity|discriminate]].
  - intros ([(l & -> & N)|(l & -> & N)] & ->); destruct l as [|x [|y l]]; try reflexivity; exfalso; apply N; reflexivity.
Qed.
Lemma active_iff : forall d, (forall l, active d = Ok l <-> on_names d l)
  /\ (forall e, active d = Err e -> e = ValueError /\ exists n h, In (n, h) d /\ no_switch h)
  /\ (forall n h, In (n, h) d -> no_switch h -> active d = Err ValueError).
Proof.
  induction d as [|[n h] d (IH1 & IH2 & IH3)]; cbn [active].
  - split; [|split].
    + intro l. split; [intro H; injection H as <-; constructor|intro H; inversion H; reflexivity].
    + discriminate.
    + intros n h [].
  - destruct (truth h) as [b|x] eqn:T; cbn [bind].
    + pose proof T as S. apply truth_ok in S. destruct (active d) as [r|x] eqn:A; cbn [bind]; (split; [|split]).
      * intro l. split.
        -- intro H. injection H as <-. destruct b; constructor; try assumption; apply IH1; reflexivity.
        -- intro H. inversion H as [|n' h' d' l' S' H'|n' h' d' l' S' H']; subst; apply truth_ok in S'; apply IH1 in H'; rewrite S' in T; injection T as <-; injection H' as ->; reflexivity.
      * discriminate.
      * intros n' h' [E|I] N.
        -- injection E as <- <-. exfalso. assert (truth h = Err ValueError) by (apply truth_err; auto). congruence.
        -- exfalso. specialize (IH3 n' h' I N). discriminate.
      * intro l. split; [discriminate|]. intro H. inversion H as [|n' h' d' l' S' H'|n' h' d' l' S' H']; subst; apply IH1 in H'; discriminate.
      * intros e H. injection H as <-. destruct (IH2 x eq_refl) as (-> & n' & h' & I & N). split; [reflexivity|]. exists n', h'. split; [right; exact I|exact N].
      * intros n' h' _ _. destruct (IH2 x eq_refl) as (-> & _). reflexivity.
    + pose proof T as S. apply truth_err in S. destruct S as (S & ->). split; [|split].
      * intro l. split; [discriminate|]. intro H. inversion H as [|n' h' d' l' S' H'|n' h' d' l' S' H']; subst; apply truth_ok in S'; congruence.
      * intros e H. injection H as <-. split; [reflexivity|]. exists n, h. split; [left; reflexivity|exact S].
      * reflexivity.
Qed.

(** A piece of the model's report and a step. *)
Definition does (log : list (name * mval)) (P : step) (piece : list (res name)) : Prop :=
  (exists ls, piece = map Ok ls /\ (forall r, P r <-> r = inl ls)) \/ (exists e, piece = [Err e] /\ (forall r, P r <-> r = inr e)).

Lemma does_emit : forall log Ps pieces, Forall2 (does log) Ps pieces ->
  forall lines e, emit (concat pieces) = (lines, e) <-> printed Ps lines e.
Proof.
  intros log Ps pieces H. induction H as [|P p Ps pieces D H IH]; intros lines e; cbn [concat].
  - split.
    + intro E. injection E as <- <-. constructor.
    + intro K. inversion K. reflexivity.
  - assert (EA : forall ls t, emit (map Ok ls ++ t) = (ls ++ fst (emit t), snd (emit t))).
    { clear. induction ls as [|x ls IH]; intro t; cbn [map app emit]; [destruct (emit t); reflexivity|]. rewrite IH. reflexivity. }
    destruct D as [(ls & -> & S)|(x & -> & S)].
    + rewrite EA. destruct (emit (concat pieces)) as [rest e'] eqn:E. cbn [fst snd]. split.
      * intro K. injection K as <- <-. apply pr_lines; [apply S; reflexivity|]. apply IH. reflexivity.
      * intro K. inversion K as [|P0 l0 ls0 rest0 e0 Pl K'|P0 l0 e0 Pe]; subst; [|apply S in Pe; discriminate].
        apply S in Pl. injection Pl as ->. apply IH in K'. injection K' as -> ->. reflexivity.
    + cbn [app emit]. split.
      * intro K. injection K as <- <-. apply pr_error. apply S. reflexivity.
      * intro K. inversion K as [|P0 l0 ls0 rest0 e0 Pl K'|P0 l0 e0 Pe]; subst; [apply S in Pl; discriminate|].
        apply S in Pe. injection Pe as ->. reflexivity.
Qed.

(** One line or an error. *)
Lemma does_one : forall log (P : step) r,
  (forall s, r = Ok s <-> P (inl [s])) -> (forall e, r = Err e <-> P (inr e)) ->
  (forall ls, P (inl ls) -> exists s, ls = [s]) -> does log P [r].
Proof.
  intros log P r A B C. destruct r as [s|e]; [left; exists [s]|right; exists e]; (split; [reflexivity|]).
  - intros [ls|x]; split; intro H.
    + destruct (C ls H) as (t & ->). apply A in H. congruence.
    + injection H as ->. apply A. reflexivity.
    + apply B in H. discriminate.
    + discriminate.
  - intros [ls|x]; split; intro H.
    + destruct (C ls H) as (t & ->). apply A in H. discriminate.
    + discriminate.
    + apply B in H. congruence.
    + injection H as ->. apply B. reflexivity.
Qed.
(** Wrapped text. *)
Lemma does_wrapped : forall log (P : step) r,
  (forall t, r = Ok t -> forall x, P x <-> x = inl (wrap t)) -> (forall e, r = Err e -> forall x, P x <-> x = inr e) -> does log P (wrapped wrap r).
Proof.
  intros log P r A B. destruct r as [t|e]; cbn [wrapped]; [left; exists (wrap t)|right; exists e]; (split; [reflexivity|]); auto.
Qed.

Lemma attr_ok : forall log n v, attr log (txt n) = Ok v <-> dict_get log (txt n) = Some v.
Proof. intros log n v. unfold attr. destruct (dict_get log (txt n)); split; congruence. Qed.
Lemma attr_err : forall log n e, attr log (txt n) = Err e <-> without log n e.
Proof. intros log n e. unfold attr, without. destruct (dict_get log (txt n)); split; try congruence; try (intros (? & ?); congruence). intro H. split; congruence. Qed.
Lemma dict_ok : forall log n d, the_dict log (txt n) = Ok d <-> dict_get log (txt n) = Some (VDict d).
Proof. intros log n d. unfold the_dict. destruct (dict_get log (txt n)) as [[]|]; split; congruence. Qed.
Lemma dict_err : forall log n e, the_dict log (txt n) = Err e <-> no_dict log n e.
Proof.
  intros log n e. unfold the_dict, no_dict. destruct (dict_get log (txt n)) as [[]|]; split; try congruence;
    try (intro H; split; [discriminate|congruence]); intros (N & ->); try reflexivity. exfalso. exact (N d eq_refl).
Qed.

Lemma does_name : forall log, does log (s_name show log) [do v <- attr log (txt "run_name"); Ok (decode show v)].
Proof.
  intro log. apply does_one.
  - intro s. rewrite bind_iff. split.
    + intros (v & A & E). injection E as E. apply attr_ok in A. apply decode_iff in E. exact (s_name_ok _ _ v s A E).
    + intro H. inversion H as [v s' A E|]; subst. exists v. split; [apply attr_ok; exact A|]. f_equal. apply decode_iff. exact E.
  - intro e. destruct (attr log (txt "run_name")) as [v|x] eqn:A; cbn [bind]; (split; [intro H|intro H; inversion H as [|e' W]; subst; apply attr_err in W]).
    + discriminate.
    + congruence.
    + injection H as <-. apply s_name_not, attr_err. exact A.
    + congruence.
  - intros ls H. inversion H; subst. eexists; reflexivity.
Qed.
Lemma does_shown : forall log n pre (P : step),
  (forall v, dict_get log (txt n) = Some v -> P (inl [txt pre ++ show v])) ->
  (forall ls, P (inl ls) -> exists v, dict_get log (txt n) = Some v /\ ls = [txt pre ++ show v]) ->
  (forall e, P (inr e) <-> without log n e) ->
  does log P [do v <- attr log (txt n); Ok (txt pre ++ show v)].
Proof.
  intros log n pre P A B C. apply does_one.
  - intro s. rewrite bind_iff. split.
    + intros (v & G & E). injection E as <-. apply A. apply attr_ok. exact G.
    + intro H. destruct (B _ H) as (v & G & E). injection E as ->. exists v. split; [apply attr_ok; exact G|reflexivity].
  - intro e. rewrite C. destruct (attr log (txt n)) as [v|x] eqn:G; cbn [bind]; split; intro H.
    + discriminate.
    + pose proof (proj2 (attr_err _ _ _) H); congruence.
    + injection H as <-. apply attr_err. exact G.
    + apply (proj2 (attr_err _ _ _)) in H. rewrite H in G. injection G as ->. reflexivity.
  - intros ls H. destruct (B _ H) as (v & _ & ->). eexists; reflexivity.
Qed.
Lemma does_policy : forall log, does log (s_policy wrap log)
  (wrapped wrap (do d <- the_dict log (txt "policy"); do l <- active d; Ok (txt "Active policies: " ++ join (txt ", ") l))).
Proof.
  intro log. apply does_wrapped.
  - intros t H. apply bind_iff in H. destruct H as (d & D & H). apply bind_iff in H. destruct H as (l & L & E). injection E as <-.
    pose proof D as D0. apply dict_ok in D. destruct (active_iff d) as (A & _ & A3). intro x. split.
    + intro H. inversion H as [d' l' t' D' O T|e N|d' n h D' I S]; subst.
      * assert (d' = d) by congruence. subst d'. apply A in O. assert (l' = l) by congruence. subst. apply listed_iff in T. subst. reflexivity.
      * apply dict_err in N. congruence.
      * assert (d' = d) by congruence. subst d'. rewrite (A3 n h I S) in L. discriminate.
    + intros ->. apply (s_policy_ok _ _ d l); [exact D|apply A; exact L|apply listed_iff; reflexivity].
  - intros e H x. destruct (the_dict log (txt "policy")) as [d|y] eqn:D; cbn [bind] in H.
    + destruct (active_iff d) as (A & A2 & A3). destruct (active d) as [l|y] eqn:L; cbn [bind] in H; [discriminate|]. injection H as ->.
      destruct (A2 e eq_refl) as (-> & n & h & I & N). pose proof D as D0. apply dict_ok in D. split.
      * intro H. inversion H as [d' l' t' D' O T|e N'|d' n' h' D' I' S]; subst.
        -- assert (d' = d) by congruence. subst d'. apply A in O. congruence.
        -- apply dict_err in N'. congruence.
        -- reflexivity.
      * intros ->. apply (s_policy_flag _ _ d n h); assumption.
    + injection H as ->. split.
      * intro H. inversion H as [d' l' t' D' O T|e' N'|d' n' h' D' I' S]; subst.
        -- apply dict_ok in D'. congruence.
        -- apply dict_err in N'. congruence.
        -- apply dict_ok in D'. congruence.
      * intros ->. apply s_policy_dict, dict_err. exact D.
Qed.
Lemma does_output : forall log, does log (s_output show log)
  [do t <- attr log (txt "output_type"); do o <- attr log (txt "select_output"); Ok (txt "Output type: " ++ show t ++ txt ", Output selection: " ++ show o)].
Proof.
  intro log. apply does_one.
  - intro s. split.
    + intro H. apply bind_iff in H. destruct H as (t & T & H). apply bind_iff in H. destruct H as (o & O & H). injection H as <-.
      apply s_output_ok; apply attr_ok; assumption.
    + intro H. inversion H as [t o T O|]; subst. apply attr_ok in T, O. rewrite T, O. reflexivity.
  - intro e. split.
    + destruct (attr log (txt "output_type")) as [t|x] eqn:T; cbn [bind].
      * destruct (attr log (txt "select_output")) as [o|x] eqn:O; cbn [bind]; [discriminate|]. intro H; injection H as <-.
        apply s_output_not. right. apply attr_err. exact O.
      * intro H; injection H as <-. apply s_output_not. left. apply attr_err. exact T.
    + intro H. inversion H as [|e' W]; subst. assert (e = AttributeError) by (destruct W as [(_ & W)|(_ & W)]; exact W). subst.
      destruct (attr log (txt "output_type")) as [t|x] eqn:T; cbn [bind].
      * destruct W as [W|W]; apply attr_err in W; [congruence|]. rewrite W. reflexivity.
      * apply attr_err in T. destruct T as (_ & ->). reflexivity.
  - intros ls H. inversion H. eexists; reflexivity.
Qed.

Lemma count_iff : forall log x ap, (txt "n_" ++ x)%list = txt (fst ap) -> replace_char underscore " "%char (title_from false x) = txt (snd ap) ->
  (forall t, count time_unit log x = Ok t <-> number_of time_unit log ap t) /\ (forall e, count time_unit log x = Err e <-> no_number_of log ap e).
Proof.
  intros log x ap E F. unfold count. rewrite E, F. unfold number_of, no_number_of. split.
  - intro t. rewrite bind_iff. split.
    + intros (n & S & H). injection H as <-. exists n. split; [reflexivity|].
      destruct (dict_get log (txt (fst ap))) as [v|]; [left; exists v; split; [reflexivity|apply shown_iff; exact S]|].
      right. split; [reflexivity|]. cbn [show4] in S. injection S as <-. reflexivity.
    + intros (n & -> & [(v & D & S)|(D & ->)]); rewrite D; [exists n; split; [apply shown_iff; exact S|reflexivity]|].
      exists (txt "0"). split; reflexivity.
  - intro e. destruct (dict_get log (txt (fst ap))) as [v|].
    + split.
      * destruct (show4 time_unit v) as [n|y] eqn:S; cbn [bind]; [discriminate|]. intro H; injection H as ->. exists v. split; [reflexivity|]. apply (show4_err time_unit). exact S.
      * intros (v' & D & N). injection D as <-. apply (show4_err time_unit) in N. rewrite N. reflexivity.
    + split; [cbn [show4 bind]; discriminate|]. intros (v & D & _). discriminate.
Qed.
Lemma all_ok_steps : forall A (Q : A -> name -> Prop) (N : A -> pyerr -> Prop) (X : Type) (g : X -> res name) xs (aps : list A),
  Forall2 (fun x ap => (forall t, g x = Ok t <-> Q ap t) /\ (forall e, g x = Err e <-> N ap e)) xs aps ->
  (forall l, all_ok (map g xs) = Ok l <-> Forall2 Q aps l) /\ (forall e, all_ok (map g xs) = Err e <-> first_error (map N aps) e).
Proof.
  intros A Q N X g xs aps H. induction H as [|x ap xs aps (G1 & G2) H (IH1 & IH2)]; cbn [map all_ok].
  - split; [intro l; split; [intro E; injection E as <-; constructor|intro E; inversion E; reflexivity]|].
    intro e. split; [discriminate|intro F; inversion F].
  - split.
    + intro l. destruct (g x) as [t|y] eqn:E; cbn [bind].
      * split.
        -- destruct (all_ok (map g xs)) as [r|z] eqn:R; [|discriminate]. intro K. injection K as <-. constructor; [apply G1; reflexivity|apply IH1; reflexivity].
        -- intro F. inversion F as [|a b la lb Qa F' E1 E2]; subst. apply G1 in Qa. injection Qa as ->. apply IH1 in F'. rewrite F'. reflexivity.
      * split; [discriminate|]. intro F. inversion F as [|a b la lb Qa F' E1 E2]; subst. apply G1 in Qa. discriminate.
    + intro e. destruct (g x) as [t|y] eqn:E; cbn [bind].
      * split.
        -- intro K. apply fe_later; [intros z Nz; apply G2 in Nz; discriminate|]. apply IH2. destruct (all_ok (map g xs)); [discriminate|]. injection K as ->. reflexivity.
        -- intro F. inversion F as [P0 l0 e0 Pe|P0 l0 e0 Np F']; subst; [apply G2 in Pe; discriminate|]. apply IH2 in F'. rewrite F'. reflexivity.
      * split.
        -- intro K. injection K as <-. apply fe_here. apply G2. reflexivity.
        -- intro F. inversion F as [P0 l0 e0 Pe|P0 l0 e0 Np F']; subst; [apply G2 in Pe; congruence|]. exfalso. apply (Np y). apply G2. reflexivity.
Qed.
Lemma counts_iff : forall log,
  (forall l, all_ok (map (count time_unit log) (map snd particle_name_underscores)) = Ok l <-> Forall2 (number_of time_unit log) people_names l)
  /\ (forall e, all_ok (map (count time_unit log) (map snd particle_name_underscores)) = Err e <-> first_error (map (no_number_of log) people_names) e).
Proof.
  intro log. apply all_ok_steps. unfold people_names. cbn [map snd particle_name_underscores].
  repeat (constructor; [apply count_iff; reflexivity|]). constructor.
Qed.
Lemma does_numbers : forall log, does log (s_numbers time_unit wrap log)
  (wrapped wrap (do l <- all_ok (map (count time_unit log) (map snd particle_name_underscores)); Ok (txt "Number of particles: " ++ join (txt ", ") l))).
Proof.
  intro log. destruct (counts_iff log) as (C1 & C2). apply does_wrapped.
  - intros t H. apply bind_iff in H. destruct H as (l & L & E). injection E as <-. intro x. split.
    + intro H. inversion H as [l' w F G|e F]; subst.
      * apply C1 in F. assert (l' = l) by congruence. subst. rewrite <- (glued_join _ _ _ G). reflexivity.
      * apply C2 in F. congruence.
    + intros ->. pose proof L as F. apply C1 in F. apply (s_numbers_ok _ _ _ l); [exact F|]. apply glued_iff; [|reflexivity]. intros ->. inversion F.
  - intros e H x. destruct (all_ok (map (count time_unit log) (map snd particle_name_underscores))) as [l|y] eqn:L; cbn [bind] in H; [discriminate|].
    injection H as ->. split.
    + intro H. inversion H as [l' w F G|e' F]; subst.
      * apply C1 in F. discriminate.
      * apply C2 in F. congruence.
    + intros ->. apply s_numbers_not, C2. reflexivity.
Qed.
Lemma does_text : forall log k params text, (forall e, text = Err e <-> first_error (map (no_text log "code") params) e) ->
  does log (s_text log (has_texts k) params text) [match k with KSnapshot | KLineOfSight => text | _ => Err AttributeError end].
Proof.
  intros log k params text T.
  assert (E : match k with KSnapshot | KLineOfSight => text | _ => Err AttributeError end = if has_texts k then text else Err AttributeError) by (destruct k; reflexivity).
  rewrite E. apply does_one.
  - intro s. split.
    + intro H. destruct (has_texts k) eqn:K; [|discriminate]. apply s_text_ok; [reflexivity|exact H].
    + intro H. inversion H as [t K H'| |]; subst; rewrite K; reflexivity.
  - intro e. split.
    + intro H. destruct (has_texts k) eqn:K; [apply s_text_not; [reflexivity|apply T; exact H]|]. injection H as <-. apply s_text_none. reflexivity.
    + intro H. inversion H as [|e' K F|K]; subst; rewrite K; [apply T; exact F|reflexivity].
  - intros ls H. inversion H. eexists; reflexivity.
Qed.
Lemma does_state : forall log, does log (s_state time_unit log)
  [do z <- attr log (txt "z"); do z <- show4 time_unit z; do a <- attr log (txt "a"); do a <- show4 time_unit a;
   do t <- attr log (txt "time"); do t <- show4 time_unit t;
   Ok (txt "Simulation state: z=" ++ z ++ txt ", a=" ++ a ++ txt ", t=" ++ t)].
Proof.
  intro log.
  assert (G : forall n B (k : name -> res B), bind (attr log (txt n)) (fun v => bind (show4 time_unit v) k) = bind (bind (attr log (txt n)) (show4 time_unit)) k).
  { intros n B k. destruct (attr log (txt n)); reflexivity. }
  rewrite !G. 
  assert (GE : forall n e, bind (attr log (txt n)) (show4 time_unit) = Err e <-> no_state log n e).
  { intros n e. unfold no_state. destruct (attr log (txt n)) as [v|y] eqn:A; cbn [bind].
    - rewrite show4_err. pose proof A as A'. apply attr_ok in A'. split; [intro H; right; exists v; auto|].
      intros [W|(v' & D & N)]; [apply attr_err in W; congruence|]. congruence.
    - pose proof A as A'. apply attr_err in A'. split.
      + intro H. injection H as <-. left. exact A'.
      + intros [W|(v' & D & N)]; [apply attr_err in W; congruence|]. apply attr_ok in D. congruence. }
  assert (GO : forall n t, bind (attr log (txt n)) (show4 time_unit) = Ok t <-> exists v, dict_get log (txt n) = Some v /\ shown time_unit v t).
  { intros n t. rewrite bind_iff. split; intros (v & A & S); exists v; (split; [apply attr_ok; exact A|apply shown_iff; exact S]). }
  apply does_one.
  - intro s. split.
    + intro H. apply bind_iff in H. destruct H as (z & Z & H). rewrite G in H. apply bind_iff in H. destruct H as (a & A & H).
      rewrite G in H. apply bind_iff in H. destruct H as (t & T & H). injection H as <-.
      apply GO in Z, A, T. destruct Z as (vz & ? & ?), A as (va & ? & ?), T as (vt & ? & ?). apply (s_state_ok _ _ vz va vt); assumption.
    + intro H. inversion H as [vz va vt z a t Z A T SZ SA ST|]; subst.
      rewrite (proj2 (GO "z"%string z)) by eauto. cbn [bind]. rewrite G, (proj2 (GO "a"%string a)) by eauto. cbn [bind].
      rewrite G, (proj2 (GO "time"%string t)) by eauto. reflexivity.
  - intro e. assert (C : bind (bind (attr log (txt "z")) (show4 time_unit)) (fun z => bind (attr log (txt "a")) (fun a => bind (show4 time_unit a) (fun a =>
       bind (attr log (txt "time")) (fun t => bind (show4 time_unit t) (fun t => Ok (txt "Simulation state: z=" ++ z ++ txt ", a=" ++ a ++ txt ", t=" ++ t))))))
       = Err e <-> first_error (map (no_state log) ["z"; "a"; "time"]%string) e).
    { cbn [map]. apply chain; [apply GE|]. intros z _. rewrite G. apply chain; [apply GE|]. intros a _. rewrite G. apply chain; [apply GE|]. intros t _. apply chain_end. }
    rewrite C. split; [apply s_state_not|]. intro H. inversion H; assumption.
  - intros ls H. inversion H. eexists; reflexivity.
Qed.
Lemma does_scheme : forall log n title, does log (s_scheme show log n title) [do s <- scheme show log (txt n); Ok (txt title ++ s)].
Proof.
  intros log n title. unfold scheme. apply does_one.
  - intro s. destruct (the_dict log (txt n)) as [d|y] eqn:D; cbn [bind]; split.
    + intro H. pose proof (proj1 (ok_iff _ _ _) H) as E. rewrite E. clear H E. apply dict_ok in D. destruct (dict_get d (txt "Scheme")) as [h|] eqn:S.
      * apply (s_scheme_ok _ _ _ _ d h); [exact D|exact S|apply decode_iff; reflexivity].
      * apply (s_scheme_none _ _ _ _ d); assumption.
    + intro H. inversion H as [d' h t D' S T|d' D' S|]; subst; apply dict_ok in D'; rewrite D in D'; injection D' as <-; rewrite S.
      * apply decode_iff in T. rewrite T. reflexivity.
      * reflexivity.
    + discriminate.
    + intro H. inversion H as [d' h t D' S T|d' D' S|]; subst; apply dict_ok in D'; congruence.
  - intro e. destruct (the_dict log (txt n)) as [d|y] eqn:D; cbn [bind]; split.
    + discriminate.
    + intro H. inversion H as [| |e' N]; subst. apply dict_err in N. congruence.
    + intro H. injection H as <-. apply s_scheme_not, dict_err. exact D.
    + intro H. inversion H as [| |e' N]; subst. apply dict_err in N. rewrite N in D. injection D as ->. reflexivity.
  - intros ls H. inversion H; eexists; reflexivity.
Qed.
Lemma schemes_cons : forall n h d l, all_schemes show ((n, h) :: d) l ->
  (n = txt "NamedColumns" /\ all_schemes show d l)
  \/ (n <> txt "NamedColumns" /\ exists t s l0, small_model n t /\ spoken show (VHeader h) s /\ all_schemes show d l0 /\ l = (t ++ txt ": " ++ s) :: l0).
Proof.
  intros n h d l H. remember ((n, h) :: d) as c eqn:E. destruct H as [|h' d' l0 H'|n' h' d' l0 t s N M T H']; [discriminate| |].
  - injection E as E1 E2 E3. subst d'. left. split; [exact (eq_sym E1)|exact H'].
  - injection E as E1 E2 E3. subst. right. split; [exact N|]. exists t, s, l0. auto.
Qed.
Lemma schemes_iff : forall d, exists l, flat_map (fun nh => if name_eqb (fst nh) (txt "NamedColumns") then []
    else [Ok (replace_model (fst nh) ++ txt ": " ++ decode show (VHeader (snd nh)))]) d = map Ok l /\ all_schemes show d l /\ forall l', all_schemes show d l' -> l' = l.
Proof.
  induction d as [|[n h] d (l & E & A & U)]; cbn [flat_map fst snd].
  - exists []. split; [reflexivity|]. split; [constructor|]. intros l' H. inversion H. reflexivity.
  - destruct (name_eqb n (txt "NamedColumns")) eqn:N.
    + apply name_eqb_iff in N. subst n. exists l. cbn [app]. split; [exact E|]. split; [constructor; exact A|].
      intros l' H. apply schemes_cons in H. destruct H as [(_ & H)|(N & _)]; [apply U; exact H|exfalso; apply N; reflexivity].
    + assert (N' : n <> txt "NamedColumns") by (intro K; apply name_eqb_iff in K; congruence).
      exists ((replace_model n ++ txt ": " ++ decode show (VHeader h)) :: l). split; [rewrite E; reflexivity|]. split.
      * apply as_one; [exact N'|apply small_model_iff; reflexivity|apply decode_iff; reflexivity|exact A].
      * intros l' H. apply schemes_cons in H. destruct H as [(K & _)|(_ & t & s & l0 & M & T & H' & ->)]; [exfalso; exact (N' K)|].
        apply small_model_iff in M. apply decode_iff in T. rewrite M, T, (U l0 H'). reflexivity.
Qed.
Lemma does_subgrid : forall log, does log (s_subgrid show log)
  (match the_dict log (txt "subgrid_scheme") with
   | Err e => [Err e]
   | Ok d => flat_map (fun nh => if name_eqb (fst nh) (txt "NamedColumns") then []
                                 else [Ok (replace_model (fst nh) ++ txt ": " ++ decode show (VHeader (snd nh)))]) d
   end).
Proof.
  intro log. destruct (the_dict log (txt "subgrid_scheme")) as [d|e] eqn:D.
  - destruct (schemes_iff d) as (l & E & A & U). left. exists l. split; [exact E|]. pose proof D as D'. apply dict_ok in D'. intro r. split.
    + intro H. inversion H as [d0 l0 D0 A0|e0 N]; subst.
      * assert (d0 = d) by congruence. subst. rewrite (U _ A0). reflexivity.
      * apply dict_err in N. congruence.
    + intros ->. apply (s_subgrid_ok _ _ d); assumption.
  - right. exists e. split; [reflexivity|]. intro r. split.
    + intro H. inversion H as [d0 l0 D0 A0|e0 N]; subst.
      * apply dict_ok in D0. congruence.
      * apply dict_err in N. congruence.
    + intros ->. apply s_subgrid_not, dict_err. exact D.
Qed.
Lemma does_blank : forall log, does log s_blank [Ok []].
Proof. intro log. left. exists [[]]. split; [reflexivity|]. intro r. split; [intro H; inversion H; reflexivity|intros ->; constructor]. Qed.

(** For every kind of file and whatever it holds: the lines that are printed, and the error after them. *)
Theorem C89_report_exact : forall k log lines e,
  emit (report show time_unit wrap k log) = (lines, e) <-> printed (report_steps show time_unit wrap log (has_texts k)) lines e.
Proof.
  intros k log lines e.
  rewrite <- (does_emit log _
    [ [do v <- attr log (txt "run_name"); Ok (decode show v)];
      [do v <- attr log (txt "snapshot_date"); Ok (txt "Written at: " ++ show v)];
      wrapped wrap (do d <- the_dict log (txt "policy"); do l <- active d; Ok (txt "Active policies: " ++ join (txt ", ") l));
      [Ok []];
      [do t <- attr log (txt "output_type"); do o <- attr log (txt "select_output"); Ok (txt "Output type: " ++ show t ++ txt ", Output selection: " ++ show o)];
      [Ok []];
      wrapped wrap (do l <- all_ok (map (count time_unit log) (map snd particle_name_underscores)); Ok (txt "Number of particles: " ++ join (txt ", ") l));
      [Ok []];
      [match k with KSnapshot | KLineOfSight => compiler_info log | _ => Err AttributeError end];
      [match k with KSnapshot | KLineOfSight => code_info log | _ => Err AttributeError end];
      [Ok []];
      [do z <- attr log (txt "z"); do z <- show4 time_unit z; do a <- attr log (txt "a"); do a <- show4 time_unit a;
       do t <- attr log (txt "time"); do t <- show4 time_unit t;
       Ok (txt "Simulation state: z=" ++ z ++ txt ", a=" ++ a ++ txt ", t=" ++ t)];
      [Ok []];
      [do v <- attr log (txt "cosmology"); Ok (txt "Cosmology: " ++ show v)];
      [Ok []];
      [do s <- scheme show log (txt "gravity_scheme"); Ok (txt "Gravity scheme: " ++ s)];
      [do s <- scheme show log (txt "hydro_scheme"); Ok (txt "Hydrodynamics scheme: " ++ s)];
      (match the_dict log (txt "subgrid_scheme") with
       | Err e => [Err e]
       | Ok d => flat_map (fun nh => if name_eqb (fst nh) (txt "NamedColumns") then []
                                     else [Ok (replace_model (fst nh) ++ txt ": " ++ decode show (VHeader (snd nh)))]) d
       end) ]).
  - unfold report. cbv zeta. cbn [concat app]. rewrite <- ?app_assoc, ?app_nil_r. cbn [app]. rewrite <- ?app_assoc. cbn [app]. reflexivity.
  - unfold report_steps. repeat match goal with |- Forall2 _ (_ :: _) _ => apply Forall2_cons end; [..|apply Forall2_nil].
    + apply does_name.
    + apply (does_shown log "snapshot_date" "Written at: ").
      * intros v D. apply s_date_ok. exact D.
      * intros ls H. inversion H as [v D|]; subst. exists v. split; [exact D|reflexivity].
      * intro x. split; [intro H; inversion H; assumption|apply s_date_not].
    + apply does_policy.
    + apply does_blank.
    + apply does_output.
    + apply does_blank.
    + apply does_numbers.
    + apply does_blank.
    + apply does_text. intro x. apply (proj1 (proj2 (C88_errors (fun _ => Err ValueError) log x))).
    + apply does_text. intro x. apply (proj1 (C88_errors (fun _ => Err ValueError) log x)).
    + apply does_blank.
    + apply does_state.
    + apply does_blank.
    + apply (does_shown log "cosmology" "Cosmology: ").
      * intros v D. apply s_cosmology_ok. exact D.
      * intros ls H. inversion H as [v D|]; subst. exists v. split; [exact D|reflexivity].
      * intro x. split; [intro H; inversion H; assumption|apply s_cosmology_not].
    + apply does_blank.
    + apply does_scheme.
    + apply does_scheme.
    + apply does_subgrid.
Qed.

(** With -r or -a: the values of all files, or the error of the first that has none and nothing else. *)
Theorem C89_listing_exact : forall n logs,
  (forall l t, Forall2 (fun log s => exists v, dict_get log (txt n) = Some v /\ shown time_unit v s) logs l -> listed [ascii_of_nat 10] l t ->
     listing time_unit (txt n) logs = ([t], Exit 0))
  /\ (forall e, first_error (map (fun log => no_state log n) logs) e -> listing time_unit (txt n) logs = ([], Raised e)).
Proof.
  intros n logs. unfold listing.
  destruct (all_ok_steps _ (fun log s => exists v, dict_get log (txt n) = Some v /\ shown time_unit v s) (fun log => no_state log n) _
    (fun log => do v <- attr log (txt n); show4 time_unit v) logs logs) as (A & B).
  { induction logs as [|log logs IH]; constructor; [|exact IH]. split.
    - intro t. rewrite bind_iff. split; intros (v & D & S); exists v; (split; [apply attr_ok; exact D|apply shown_iff; exact S]).
    - intro e. unfold no_state. destruct (attr log (txt n)) as [v|y] eqn:D; cbn [bind].
      + rewrite show4_err. pose proof D as D'. apply attr_ok in D'. split; [intro H; right; exists v; auto|].
        intros [W|(v' & D2 & N)]; [apply attr_err in W; congruence|]. congruence.
      + pose proof D as D'. apply attr_err in D'. split.
        * intro H. injection H as <-. left. exact D'.
        * intros [W|(v' & D2 & N)]; [apply attr_err in W; congruence|]. apply attr_ok in D2. congruence. }
  split.
  - intros l t F L. apply A in F. rewrite F. apply listed_iff in L. subst. reflexivity.
  - intros e F. apply B in F. rewrite F. reflexivity.
Qed.
End Reports.

Example C88_error_example :
  code_info [(txt "code", VDict [(txt "Code", HBytes (txt "SWIFT")); (txt "Git Branch", HStr (txt "m"))])] = Err AttributeError
  /\ code_info [(txt "code", VDict [(txt "Code", HBytes (txt "SWIFT"))])] = Err KeyError
  /\ code_info [(txt "code", VNone)] = Err TypeError
  /\ diffusion_info [(txt "hydro_scheme", VDict [(txt "Diffusion alpha", HArr [])])] = Err IndexError
  /\ diffusion_info [(txt "hydro_scheme", VDict [(txt "Diffusion alpha", HStr (txt "x"))])] = Err ValueError
  /\ first_error (map (no_text [(txt "code", VDict [(txt "Code", HBytes (txt "SWIFT"))])] "code") ["Code"; "Git Branch"]%string) KeyError.
Proof.
  repeat split; try (vm_compute; reflexivity). cbn [map]. apply fe_later.
  - intros x N. apply string_err in N. vm_compute in N. discriminate.
  - apply fe_here. apply nt_missing. eapply mi_param; reflexivity.
Qed.
Example C89_error_example : exists lines, printed (report_steps show_some (txt "Gyr") (fun s => [s]) [(txt "run_name", VText (txt "x"))] true) lines (Some AttributeError)
  /\ lines = [txt "x"].
Proof.
  eexists. split; [|reflexivity]. apply (C89_report_exact _ _ _ KSnapshot). vm_compute. reflexivity.
Qed.

Print Assumptions C88_errors.
Print Assumptions C88_incomplete_errors.
Print Assumptions C89_report_exact.
Print Assumptions C89_listing_exact.

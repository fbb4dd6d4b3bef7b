(** C94: every outcome of the preparation of arguments, for all arguments. *)
From Coq Require Import String List ZArith Bool Reals Lra Lia.
From Verif Require Import Base BaseLemmas CosmoModel CosmoSpec CosmoProofs CosmoExactSpec CosmoExactTheorems FuncModel FuncSpec
  UfuncTheorems PrepSpec.
Import ListNotations.
Open Scope R_scope.

(** * The choice *)

Lemma cms_in : forall l m, In m (map snd (filter fst (map op_cm l))) <-> exists x, In (OArr x) l /\ acm x = m.
Proof.
  induction l as [|o l IH]; intro m; [split; [contradiction|intros (x & [] & _)]|].
  destruct o as [x|v]; cbn [map op_cm filter fst snd In].
  - rewrite IH. split.
    + intros [<-|(y & I & E)]; [exists x; auto|exists y; auto].
    + intros (y & [H|I] & E); [injection H as ->; auto|right; exists y; auto].
  - rewrite IH. split; intros (y & I & E).
    + exists y; auto.
    + destruct I as [H|I]; [discriminate|exists y; auto].
Qed.

Lemma protected_iff : forall l, existsb protected l = true <-> fixed_in l.
Proof.
  intro l. rewrite existsb_exists. split.
  - intros ([x|v] & I & P); [|discriminate]. exists x. split; [exact I|]. cbn [protected] in P. destruct (avt x); [discriminate|reflexivity].
  - intros (x & I & V). exists (OArr x). split; [exact I|]. cbn [protected]. rewrite V. reflexivity.
Qed.

Lemma protected_not : forall l, existsb protected l = false <-> ~ fixed_in l.
Proof.
  intro l. rewrite <- protected_iff. destruct (existsb protected l); split; try congruence; try discriminate; tauto.
Qed.

Definition picked (d : bool) (args all : list operand) : choice :=
  let cms := map snd (filter fst (map op_cm all)) in
  match cms with
  | [] => AsGiven None
  | _ =>
      if forallb is_true cms then AsGiven (Some true)
      else if forallb is_none cms then AsGiven None
      else if existsb is_none cms then Refused
      else if forallb is_false cms then AsGiven (Some false)
      else if d && negb (existsb protected args) then ToComoving else AsPhysical
  end.

Lemma picked_chosen : forall d args all, chosen d args all (picked d args all).
Proof.
  intros d args all. unfold picked. pose proof (cms_in all) as I.
  destruct (map snd (filter fst (map op_cm all))) as [|m ms] eqn:E.
  { constructor. intros x H. exfalso. apply (proj2 (I (acm x))). exists x. auto. }
  set (cms := m :: ms) in *.
  assert (N : exists x, In (OArr x) all).
  { destruct (proj1 (I m) (or_introl eq_refl)) as (x & H & _). exists x. exact H. }
  assert (F : forall p, forallb p cms = true <-> forall x, In (OArr x) all -> p (acm x) = true).
  { intro p. rewrite forallb_forall. split.
    - intros H x J. apply H. apply I. exists x. auto.
    - intros H y J. apply I in J. destruct J as (x & J & <-). apply H. exact J. }
  assert (X : forall p, forallb p cms = false -> exists x, In (OArr x) all /\ p (acm x) = false).
  { intros p H. assert (Q : exists y, In y cms /\ p y = false).
    { clear - H. induction cms as [|y t IH]; [discriminate|]. cbn [forallb] in H. destruct (p y) eqn:P.
      - destruct (IH H) as (z & J & Q). exists z. split; [right; exact J|exact Q].
      - exists y. split; [left; reflexivity|exact P]. }
    destruct Q as (y & J & P). apply I in J. destruct J as (x & J & <-). exists x. auto. }
  destruct (forallb is_true cms) eqn:T.
  { apply ch_same; [exact N|]. intros x J. pose proof (proj1 (F is_true) T x J) as K. destruct (acm x) as [[|]|]; try discriminate. reflexivity. }
  destruct (forallb is_none cms) eqn:O.
  { apply ch_unset. intros x J. pose proof (proj1 (F is_none) O x J) as K. destruct (acm x) as [[|]|]; try discriminate. reflexivity. }
  destruct (existsb is_none cms) eqn:S.
  { apply existsb_exists in S. destruct S as (y & J & P). apply I in J. destruct J as (x & J & <-).
    destruct (X _ O) as (z & Jz & Pz). apply (ch_refused d args all x z J); [|exact Jz|].
    - destruct (acm x); [discriminate|reflexivity].
    - intro A. rewrite A in Pz. discriminate. }
  destruct (forallb is_false cms) eqn:A.
  { apply ch_same; [exact N|]. intros x J. pose proof (proj1 (F is_false) A x J) as K. destruct (acm x) as [[|]|]; try discriminate. reflexivity. }
  assert (NN : forall x, In (OArr x) all -> acm x <> None).
  { intros x J K. assert (existsb is_none cms = true); [|congruence]. apply existsb_exists. exists (acm x). split; [apply I; exists x; auto|rewrite K; reflexivity]. }
  assert (M : mixed all).
  { split; [|split; [|exact NN]].
    - destruct (X _ A) as (x & J & P). exists x. split; [exact J|]. specialize (NN x J). destruct (acm x) as [[|]|]; try discriminate; congruence.
    - destruct (X _ T) as (x & J & P). exists x. split; [exact J|]. specialize (NN x J). destruct (acm x) as [[|]|]; try discriminate; congruence. }
  destruct d; cbn [andb].
  - destruct (existsb protected args) eqn:P; cbn [negb].
    + apply ch_physical; [exact M|]. right. apply protected_iff. exact P.
    + apply ch_comoving; [exact M|reflexivity|]. apply protected_not. exact P.
  - apply ch_physical; [exact M|left; reflexivity].
Qed.

Lemma chosen_unique : forall d args all c c', chosen d args all c -> chosen d args all c' -> c = c'.
Proof.
  intros d args all c c' H H'.
  destruct H as [A|b (x & Ix) A|x y Ix A Iy B|((x & Ix & Ex) & (y & Iy & Ey) & N) P F|((x & Ix & Ex) & (y & Iy & Ey) & N) P],
    H' as [A'|b' (x' & Ix') A'|x' y' Ix' A' Iy' B'|((x' & Ix' & Ex') & (y' & Iy' & Ey') & N') P' F'|((x' & Ix' & Ex') & (y' & Iy' & Ey') & N') P'];
    try reflexivity;
    repeat match goal with
    | H : (forall x, In (OArr x) all -> _), J : In (OArr ?z) all |- _ =>
        let T := type of (H z J) in lazymatch goal with _ : T |- _ => fail | _ => pose proof (H z J) end
    end;
    first [congruence | exfalso; congruence | exfalso; tauto
          | exfalso; destruct P as [P|P]; [congruence|tauto] | exfalso; destruct P' as [P'|P']; [congruence|tauto]].
Qed.

(** * Bringing to comoving numbers *)

Lemma coerce_brought : forall o, brought o (coerce to_comoving o).
Proof.
  intros [x|v]; cbn [coerce]; [|constructor]. destruct (is_true (acm x)) eqn:T.
  - apply br_there. destruct (acm x) as [[|]|]; try discriminate. reflexivity.
  - assert (A : acm x <> Some true) by (intro A; rewrite A in T; discriminate).
    pose proof (to_comoving_copied x) as C. destruct (to_comoving x) as [y|e]; cbn [bind]; [apply br_copy|apply br_error]; assumption.
Qed.

Lemma brought_unique : forall o r r', brought o r -> brought o r' -> r = r'.
Proof.
  intros o r r' H H'. destruct H as [v|x A|x y A C|x e A C]; inversion H' as [v'|x' A'|x' y' A' C'|x' e' A' C']; subst; try reflexivity; try congruence;
    pose proof (copied_unique _ _ _ _ C C'); congruence.
Qed.

Lemma all_coerced : forall l, all_brought l (all_ok (map (coerce to_comoving) l)).
Proof.
  induction l as [|o l IH]; [constructor|]. cbn [map all_ok]. pose proof (coerce_brought o) as B.
  destruct (coerce to_comoving o) as [o'|e]; [|apply ab_first; exact B].
  destruct (all_ok (map (coerce to_comoving) l)) as [l'|e]; [apply ab_cons|apply (ab_later o o')]; assumption.
Qed.

Lemma all_brought_unique : forall l r r', all_brought l r -> all_brought l r' -> r = r'.
Proof.
  induction l as [|o l IH]; intros r r' H H'; [inversion H; inversion H'; reflexivity|].
  inversion H as [|o0 o1 l0 l1 B A|o0 l0 e B|o0 o1 l0 e B A]; subst; inversion H' as [|o0' o1' l0' l1' B' A'|o0' l0' e' B'|o0' o1' l0' e' B' A']; subst;
    pose proof (brought_unique _ _ _ B B') as E; try congruence;
    try (injection E as <-); try (pose proof (IH _ _ A A') as E'; congruence).
Qed.

Lemma all_ok_app : forall (a b : list (res operand)),
  all_ok (a ++ b) = (do x <- all_ok a; do y <- all_ok b; Ok (x ++ y)).
Proof.
  induction a as [|r a IH]; intro b; cbn [app all_ok bind]; [destruct (all_ok b); reflexivity|].
  destruct r as [v|e]; [|reflexivity]. rewrite IH. destruct (all_ok a) as [x|e]; cbn [bind]; [|reflexivity].
  destruct (all_ok b) as [y|e]; reflexivity.
Qed.

Lemma all_ok_len : forall (l : list (res operand)) r, all_ok l = Ok r -> length r = length l.
Proof.
  induction l as [|x l IH]; intros r H; cbn [all_ok] in H; [injection H as <-; reflexivity|].
  destruct x as [v|e]; [|discriminate]. destruct (all_ok l) as [t|e]; [|discriminate]. injection H as <-. cbn [length]. f_equal. apply IH. reflexivity.
Qed.

(** A mix that is not made comoving is left as it is. *)
Lemma left_alone : forall l, (forall x, In (OArr x) l -> acm x <> None) -> all_ok (map (coerce to_physical) l) = Ok l.
Proof.
  induction l as [|o l IH]; intro N; [reflexivity|]. cbn [map all_ok].
  assert (C : coerce to_physical o = Ok o).
  { destruct o as [x|v]; [|reflexivity]. cbn [coerce]. pose proof (N x (or_introl eq_refl)) as A.
    unfold to_physical, convert_to_physical. destruct (acm x) as [[|]|]; cbn [is_true]; [reflexivity| |congruence].
    rewrite andb_false_r. reflexivity. }
  rewrite C, IH; [reflexivity|]. intros x I. apply N. right. exact I.
Qed.

(** * Compression and convertibility *)

Lemma comp_eqb_iff : forall c d, comp_eqb c d = true <-> c = d.
Proof.
  induction c as [|s|b c IH]; intros [|t|b' d]; cbn [comp_eqb]; try (split; [reflexivity||discriminate|reflexivity||discriminate]).
  - rewrite String.eqb_eq. split; congruence.
  - rewrite andb_true_iff, Bool.eqb_true_iff, IH. split; [intros (-> & ->); reflexivity|]. intro H. injection H as -> ->. auto.
Qed.

Definition comp_found (l : list operand) : comp :=
  match map op_comp l with
  | [] => CNone
  | c :: cs => if forallb (comp_eqb c) cs then c else CNone
  end.

Lemma op_comp_pair : forall o, op_comp o = CPair (fst (pair_of o)) (snd (pair_of o)).
Proof. intros [x|v]; reflexivity. Qed.

Lemma found_common : forall l, in_common l (comp_found l).
Proof.
  intros [|o l]; [constructor|]. unfold comp_found. cbn [map].
  destruct (forallb (comp_eqb (op_comp o)) (map op_comp l)) eqn:F.
  - rewrite op_comp_pair. apply ic_same; [discriminate|]. intros o' [<-|I]; [destruct (pair_of o); reflexivity|].
    rewrite forallb_forall in F. specialize (F (op_comp o') (in_map op_comp l o' I)). apply comp_eqb_iff in F.
    rewrite !op_comp_pair in F. injection F as E1 E2. destruct (pair_of o), (pair_of o'); cbn in *; congruence.
  - assert (X : exists o', In o' l /\ comp_eqb (op_comp o) (op_comp o') = false).
    { clear - F. induction l as [|a l IH]; [discriminate|]. cbn [map forallb] in F. destruct (comp_eqb (op_comp o) (op_comp a)) eqn:E.
      - destruct (IH F) as (o' & I & Q). exists o'. split; [right; exact I|exact Q].
      - exists a. split; [left; reflexivity|exact E]. }
    destruct X as (o' & I & Q). apply (ic_differ (o :: l) o o'); [left; reflexivity|right; exact I|]. intro E.
    assert (op_comp o = op_comp o') by (rewrite !op_comp_pair, E; reflexivity). apply comp_eqb_iff in H. congruence.
Qed.

Lemma common_unique : forall l c c', in_common l c -> in_common l c' -> c = c'.
Proof.
  intros l c c' H H'. destruct H as [|l b c N A|l o o' I I' D]; inversion H' as [|l0 b0 c0 N0 A0|l0 p p' J J' D0]; subst; try reflexivity; try congruence; try contradiction.
  - destruct l as [|o l]; [congruence|]. specialize (A o (or_introl eq_refl)). specialize (A0 o (or_introl eq_refl)). congruence.
  - exfalso. apply D0. rewrite (A p J), (A p' J'). reflexivity.
  - exfalso. apply D. rewrite (A0 o I), (A0 o' I'). reflexivity.
Qed.

Lemma vt_convertible : forall l, convertible l (forallb op_vt l).
Proof.
  intro l. destruct (forallb op_vt l) eqn:F.
  - apply cb_yes. intros (x & I & V). rewrite forallb_forall in F. specialize (F _ I). cbn [op_vt] in F. congruence.
  - apply cb_no. induction l as [|o l IH]; [discriminate|]. cbn [forallb] in F. destruct (op_vt o) eqn:V.
    + destruct (IH F) as (x & I & W). exists x. split; [right; exact I|exact W].
    + destruct o as [x|v]; [|discriminate]. exists x. split; [left; reflexivity|exact V].
Qed.

Lemma convertible_unique : forall l b b', convertible l b -> convertible l b' -> b = b'.
Proof. intros l b b' H H'. destruct H; inversion H'; subst; try reflexivity; contradiction. Qed.

(** * All of it *)

Lemma labels_own : forall l, map op_cf l = map own_label l.
Proof. intro l. apply map_ext. intros [x|v]; reflexivity. Qed.

Lemma kw_prepared : forall d args kw, prepared d args kw (prepare_kw d args kw).
Proof.
  intros d args kw. set (all := args ++ kw). pose proof (picked_chosen d args all) as P.
  pose proof (found_common all) as FC. pose proof (vt_convertible all) as FV.
  assert (E : prepare_kw d args kw =
    match picked d args all with
    | AsGiven f => Ok (mkprepk args kw (map own_label args) (map own_label kw) f (forallb op_vt all) (comp_found all) false)
    | Refused => Err ValueError
    | ToComoving => do args' <- all_ok (map (coerce to_comoving) args); do kw' <- all_ok (map (coerce to_comoving) kw);
        Ok (mkprepk args' kw' (map own_label args) (map own_label kw) (Some true) (forallb op_vt all) (comp_found all) true)
    | AsPhysical => do args' <- all_ok (map (coerce to_physical) args); do kw' <- all_ok (map (coerce to_physical) kw);
        Ok (mkprepk args' kw' (map own_label args) (map own_label kw) (Some false) (forallb op_vt all) (comp_found all) true)
    end).
  { unfold prepare_kw, picked. fold all. rewrite !labels_own. fold (comp_found all). cbv zeta.
    destruct (map snd (filter fst (map op_cm all))) as [|m ms]; [reflexivity|].
    destruct (forallb is_true (m :: ms)); [reflexivity|]. destruct (forallb is_none (m :: ms)); [reflexivity|].
    destruct (existsb is_none (m :: ms)); [reflexivity|]. destruct (forallb is_false (m :: ms)); [reflexivity|].
    destruct (d && negb (existsb protected args)); reflexivity. }
  rewrite E. clear E. destruct (picked d args all) as [f| | |] eqn:K.
  - apply pd_given; assumption.
  - apply pd_refused. exact P.
  - pose proof (all_coerced all) as C. unfold all in C. rewrite map_app, all_ok_app in C.
    destruct (all_ok (map (coerce to_comoving) args)) as [args'|e] eqn:A; cbn [bind] in *; [|apply pd_error; assumption].
    destruct (all_ok (map (coerce to_comoving) kw)) as [kw'|e] eqn:B; cbn [bind] in *; [|apply pd_error; assumption].
    apply pd_comoving; try assumption. apply all_ok_len in A. rewrite map_length in A. exact A.
  - assert (N : forall x, In (OArr x) all -> acm x <> None).
    { inversion P as [|b X A|x y Ix A Iy B|M Q F|M Q]; subst. apply M. }
    rewrite !left_alone; cbn [bind].
    + apply pd_physical; assumption.
    + intros x I. apply N. apply in_or_app. right. exact I.
    + intros x I. apply N. apply in_or_app. left. exact I.
Qed.

Lemma split_same : forall A (a a' w w' : list A), length a = length a' -> a ++ w = a' ++ w' -> a = a' /\ w = w'.
Proof.
  intros A a. induction a as [|x a IH]; intros [|y a'] w w' L E; cbn [length app] in *; try discriminate; [auto|].
  injection E as -> E. injection L as L. destruct (IH a' w w' L E) as (-> & ->). auto.
Qed.

Lemma prepared_unique : forall d args kw r r', prepared d args kw r -> prepared d args kw r' -> r = r'.
Proof.
  intros d args kw r r' H H'.
  destruct H as [C|f vt c C V K|e C A|a w vt c C L A V K|vt c C V K], H' as [C'|f' vt' c' C' V' K'|e' C' A'|a' w' vt' c' C' L' A' V' K'|vt' c' C' V' K'];
    pose proof (chosen_unique _ _ _ _ _ C C') as E; try discriminate; try reflexivity;
    try (pose proof (common_unique _ _ _ K K'); pose proof (convertible_unique _ _ _ V V')); try (pose proof (all_brought_unique _ _ _ A A') as E'); try congruence.
  injection E' as E'. assert (a = a' /\ w = w') as (-> & ->); [|congruence].
  apply (split_same operand a a' w w'); [congruence|exact E'].
Qed.

(** Every outcome of the preparation, for all positional and keyword arguments. *)
Theorem C94_exact : forall d args kw r, prepare_kw d args kw = r <-> prepared d args kw r.
Proof.
  intros d args kw r. split; [intros <-; apply kw_prepared|]. apply (prepared_unique d args kw _ _ (kw_prepared d args kw)).
Qed.

(** The same without keywords. *)
Theorem C94_positional : forall args,
  (forall e, prepare true args = Err e <-> prepared true args [] (Err e))
  /\ (forall p, prepare true args = Ok p <-> exists q, prepared true args [] (Ok q)
       /\ p = mkprep (k_args q) (k_cfs q) (k_cm q) (k_vt q) (k_comp q)).
Proof.
  intro args. pose proof (prepare_is args) as I. pose proof (C94_exact true args []) as X.
  split.
  - intro e. rewrite <- X. destruct (prepare true args) as [p|e1], (prepare_kw true args []) as [q|e2]; try contradiction; split; intro H; try discriminate; congruence.
  - intro p. destruct (prepare true args) as [p'|e1], (prepare_kw true args []) as [q|e2]; try contradiction; split; intro H; try discriminate.
    + injection H as <-. exists q. split; [apply X; reflexivity|]. destruct I as (I1 & I2 & I3 & I4 & I5 & I6).
      destruct p'. cbn [CosmoModel.p_args CosmoModel.p_cfs CosmoModel.p_cm CosmoModel.p_vt CosmoModel.p_comp] in *. congruence.
    + destruct H as (q' & H & ->). apply X in H. injection H as <-. destruct I as (I1 & I2 & I3 & I4 & I5 & I6).
      destruct p'. cbn [CosmoModel.p_args CosmoModel.p_cfs CosmoModel.p_cm CosmoModel.p_vt CosmoModel.p_comp] in *. congruence.
    + destruct H as (q' & H & _). apply X in H. discriminate.
Qed.

(** * What it means *)

Lemma brought_meaning : forall l l', all_brought l (Ok l') ->
  map op_phys l' = map op_phys l /\ map own_label l' = map own_label l
  /\ (forall x, In (OArr x) l' -> acm x = Some true).
Proof.
  induction l as [|o l IH]; intros l' H; inversion H as [|o0 o1 l0 l1 B A| |]; subst; [repeat split; intros x []|].
  destruct (IH _ A) as (I1 & I2 & I3).
  assert (Q : op_phys o1 = op_phys o /\ own_label o1 = own_label o /\ forall x, o1 = OArr x -> acm x = Some true).
  { inversion B as [v|x E|x y E C|]; subst; [repeat split; discriminate|repeat split; congruence|].
    inversion C as [|r V D]; subst. destruct V as [V|(V & _)]; [|discriminate].
    inversion D as [E'| | | | |k s E' V' L]; subst; [congruence|]. cbn [negb] in E'.
    cbn [op_phys own_label]. split; [|split; [reflexivity|intros z Z; injection Z as <-; reflexivity]].
    unfold phys. cbn [acm acf avals]. rewrite E', L. rewrite map_map. transitivity (map (fun v : R => v) (avals x)); [|apply map_id].
    apply map_ext. intro v. field. apply Rpower_nz. }
  destruct Q as (Q1 & Q2 & Q3). cbn [map]. rewrite Q1, Q2, I1, I2. repeat split; try reflexivity.
  intros x [E|I]; [apply Q3; exact E|apply I3; exact I].
Qed.

(** Unless a mix is left as it is, all arguments stand for what they stood for and are in the frame
    that the result is labelled with. *)
Theorem C94_meaning : forall d args kw p, prepare_kw d args kw = Ok p ->
  ~ chosen d args (args ++ kw) AsPhysical ->
  map op_phys (k_args p) = map op_phys args /\ map op_phys (k_kw p) = map op_phys kw
  /\ (forall x, In (OArr x) (k_args p ++ k_kw p) -> acm x = k_cm p).
Proof.
  intros d args kw p H N. apply C94_exact in H.
  inversion H as [|f vt c C V K|e C A|a w vt c C L A V K|vt c C V K]; subst; cbn [k_args k_kw k_cm].
  - split; [reflexivity|]. split; [reflexivity|]. intros x I.
    inversion C as [Q|b X Q| | |]; subst; apply Q; exact I.
  - destruct (brought_meaning _ _ A) as (M1 & _ & M3). rewrite !map_app in M1.
    apply split_same in M1; [|rewrite !map_length; exact L]. destruct M1 as (M1 & M2). repeat split; assumption.
  - contradiction.
Qed.

(** A mix with an array that must not be converted among the positional arguments is left as it is: the
    comoving numbers go to numpy unconverted, and the result is labelled physical. *)
Theorem C94_mix_unconverted_refuted : forall d args kw, mixed (args ++ kw) -> d = false \/ fixed_in args ->
  exists p x, prepare_kw d args kw = Ok p /\ k_args p = args /\ k_kw p = kw /\ k_cm p = Some false
  /\ In (OArr x) (k_args p ++ k_kw p) /\ acm x = Some true.
Proof.
  intros d args kw M D. pose proof M as M'. destruct M as ((x & I & E) & _).
  exists (mkprepk args kw (map own_label args) (map own_label kw) (Some false) (forallb op_vt (args ++ kw)) (comp_found (args ++ kw)) true), x.
  repeat split; try assumption. apply C94_exact. apply pd_physical; [apply ch_physical; assumption|apply vt_convertible|apply found_common].
Qed.

(** An array that must not be converted among the keyword arguments only is not looked for, so that
    the call fails on it. *)
Theorem C94_keyword_fixed : forall args kw, mixed (args ++ kw) -> ~ fixed_in args ->
  (exists x, In (OArr x) kw /\ avt x = false /\ acm x = Some false) ->
  exists e, prepare_kw true args kw = Err e.
Proof.
  intros args kw M F (x & I & V & E).
  assert (X : forall l, In (OArr x) l -> exists e, all_brought l (Err e)).
  { induction l as [|o l IH]; [intros []|]. intros J. pose proof (coerce_brought o) as Q.
    destruct (coerce to_comoving o) as [o'|e] eqn:C; [|exists e; apply ab_first; exact Q].
    destruct J as [->|J].
    - exfalso. cbn [coerce] in C. rewrite E in C. cbn [is_true] in C. unfold to_comoving, convert_to_comoving in C. rewrite V, E in C. discriminate.
    - destruct (IH J) as (e & K). exists e. apply (ab_later o o'); assumption. }
  destruct (X (args ++ kw)) as (e & K); [apply in_or_app; right; exact I|].
  exists e. apply C94_exact. apply pd_error; [|exact K]. apply ch_comoving; [exact M|reflexivity|exact F].
Qed.

(** * Calls *)

(** A wrapped function prepares, then labels, then computes; the first that fails decides. *)
Theorem C94_calls : forall f h args kw,
  (forall r, call f h args kw = Ok r <-> exists p c v, prepared true args kw (Ok p)
      /\ h (map own_label args) (map own_label kw) = Ok c
      /\ f (map op_vals (k_args p)) (map op_vals (k_kw p)) = Ok v /\ r = mkarr v c (k_cm p) (k_vt p) (k_comp p))
  /\ (forall e, call f h args kw = Err e <->
      prepared true args kw (Err e)
      \/ exists p, prepared true args kw (Ok p)
         /\ (h (map own_label args) (map own_label kw) = Err e
             \/ exists c, h (map own_label args) (map own_label kw) = Ok c
                /\ f (map op_vals (k_args p)) (map op_vals (k_kw p)) = Err e)).
Proof.
  intros f h args kw. unfold call.
  assert (L : forall p, prepare_kw true args kw = Ok p -> k_cfs p = map own_label args /\ k_kwcfs p = map own_label kw).
  { intros p H. apply C94_exact in H. inversion H; subst; split; reflexivity. }
  pose proof (C94_exact true args kw) as X.
  destruct (prepare_kw true args kw) as [p|e0] eqn:P; cbn [bind].
  - destruct (L p eq_refl) as (-> & ->). assert (PP : prepared true args kw (Ok p)) by (apply X; reflexivity).
    assert (UU : forall q, prepared true args kw (Ok q) -> q = p) by (intros q Q; apply X in Q; congruence).
    assert (NE : forall e, ~ prepared true args kw (Err e)) by (intros e Q; apply X in Q; discriminate).
    unfold numbers, label.
    destruct (h (map own_label args) (map own_label kw)) as [c|e1] eqn:H; cbn [bind].
    + destruct (f (map op_vals (k_args p)) (map op_vals (k_kw p))) as [v|e2] eqn:F; cbn [bind]; split; intro r; split.
      * intro E. injection E as <-. exists p, c, v. auto.
      * intros (q & c' & v' & Q & Hc & Fv & ->). pose proof (UU q Q) as ->. rewrite F in Fv. congruence.
      * discriminate.
      * intros [Q|(q & Q & [Hc|(c' & Hc & Fv)])]; [apply NE in Q; contradiction|discriminate|]. pose proof (UU q Q) as ->. congruence.
      * discriminate.
      * intros (q & c' & v' & Q & Hc & Fv & ->). pose proof (UU q Q) as ->. congruence.
      * intro E. injection E as <-. right. exists p. split; [exact PP|]. right. exists c. auto.
      * intros [Q|(q & Q & [Hc|(c' & Hc & Fv)])]; [apply NE in Q; contradiction|discriminate|]. pose proof (UU q Q) as ->. rewrite F in Fv. injection Fv as ->. reflexivity.
    + split; intro r; split; try discriminate.
      * intros (q & c' & v' & Q & Hc & _). discriminate.
      * intro E. injection E as <-. right. exists p. split; [exact PP|]. left. reflexivity.
      * intros [Q|(q & Q & [Hc|(c' & Hc & Fv)])]; [apply NE in Q; contradiction| |discriminate]. injection Hc as ->. reflexivity.
  - assert (UU : forall q, prepared true args kw q -> q = Err e0) by (intros q Q; apply X in Q; congruence).
    assert (PP : prepared true args kw (Err e0)) by (apply X; reflexivity).
    split; intro r; split; try discriminate.
    + intros (q & c' & v' & Q & _). apply UU in Q. discriminate.
    + intro E. injection E as <-. left. exact PP.
    + intros [Q|(q & Q & _)]; apply UU in Q; [injection Q as ->; reflexivity|discriminate].
Qed.

(** * Cases *)

Definition length2 (cm : bool) (vt : bool) : carr := mkarr [3] (Some (mkcf (Some 1) (Some (1 / 2)))) (Some cm) vt CNone.

(** A comoving and a physical length: the physical one is divided by the scale factor. *)
Example C94_converted : prepare_kw true [OArr (length2 true true)] [OArr (length2 false true); OPlain [1]]
  = Ok (mkprepk [OArr (length2 true true)]
        [OArr (mkarr [3 / Rpower (1 / 2) 1] (Some (mkcf (Some 1) (Some (1 / 2)))) (Some true) true CNone); OPlain [1]]
        [Some (mkcf (Some 1) (Some (1 / 2)))] [Some (mkcf (Some 1) (Some (1 / 2))); None] (Some true) true CNone true).
Proof. reflexivity. Qed.

(** With a physical length that must not be converted, three comoving and three physical units become six. *)
Example C94_left : exists p, prepare_kw true [OArr (length2 true true); OArr (length2 false false)] [] = Ok p
  /\ k_cm p = Some false /\ map op_vals (k_args p) = [[3]; [3]]
  /\ map op_phys [OArr (length2 true true); OArr (length2 false false)] = [[3 * (1 / 2)]; [3]].
Proof.
  eexists. split; [reflexivity|]. split; [reflexivity|]. split; [reflexivity|].
  cbn [map op_phys]. unfold phys. cbn [length2 acm acf avals map]. rewrite Rpower_1 by lra. do 2 f_equal; ring.
Qed.

Print Assumptions C94_exact.
Print Assumptions C94_positional.
Print Assumptions C94_meaning.
Print Assumptions C94_mix_unconverted_refuted.
Print Assumptions C94_keyword_fixed.
Print Assumptions C94_calls.

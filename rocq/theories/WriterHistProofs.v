From Coq Require Import String List ZArith Bool Reals QArith Qreals Lia Lra Sorting.Sorted.
From Verif Require Import Base BaseLemmas CosmoModel CosmoSpec CosmoProofs CosmoHeapProofs.
From Verif Require Import WriterModel WriterSpec WriterProofs WriterFileProofs.
Import ListNotations.
Open Scope R_scope.

(** * Reachable states *)

Lemma generate_ids_shaped : forall names st i w used, mem_shaped st ->
  Forall (fun p => (0 <= snd p)%Z) names ->
  mem_shaped (fst (generate_ids st i w names used)).
Proof.
  induction names as [|[t n] rest IH]; intros st i w used Hs Hn; cbn [generate_ids]; [exact Hs|].
  inversion Hn as [|? ? Hn1 Hn2]; subst. cbn in Hn1.
  set (x := wrap_plain (w_a w) [n] (arange used (n + used))).
  set (st1 := mkstate (mem st ++ [x]) (writers st)).
  assert (H1 : mem_shaped st1).
  { unfold mem_shaped, st1. cbn [mem]. apply Forall_app. split; auto. constructor; auto.
    unfold x. apply shaped_wrap_plain; [repeat constructor; auto|].
    rewrite zlen_arange by auto. cbn. lia. }
  pose proof (setter_shaped st1 i w t "particle_ids" d_none (GArr (length (mem st))) H1 I) as H2.
  destruct (setter st1 i w t "particle_ids" d_none (GArr (length (mem st)))) as [st2 [u|e]];
    cbn [fst] in H2; [|exact H2].
  destruct (nth_error (writers st2) i) as [w2|]; [|exact H2].
  apply IH; auto.
Qed.

Lemma write_keeps : forall fz st i, refs_ok st -> mem_shaped st ->
  refs_ok (fst (write fz st i)) /\ mem_shaped (fst (write fz st i)).
Proof.
  intros fz st i Hok Hs. destruct (nth_error (writers st) i) as [w|] eqn:Hw.
  - destruct (write fz st i) as [st' out] eqn:E.
    destruct (write_cases fz st i w st' out Hok Hs Hw E) as
      [(e & _ & -> & _) | (w' & names & gen & Ho & _)]; [auto|].
    split; [apply Ho|].
    unfold write in E. rewrite Hw in E. destruct Ho as (Et & _). rewrite Et in E.
    destruct gen.
    + pose proof (generate_ids_shaped names st i w 1 Hs (names_nonneg _ _ _ _ Hs Et)) as Hg.
      destruct (generate_ids st i w names 1) as [st1 [w1|]]; inversion E; subst; exact Hg.
    + destruct names; [inversion E; subst; auto|].
      destruct (negb _); inversion E; subst; auto.
  - unfold write. rewrite Hw. auto.
Qed.

Lemma wstep_keeps : forall fz st o, op_shaped o -> refs_ok st -> mem_shaped st ->
  refs_ok (fst (wstep fz st o)) /\ mem_shaped (fst (wstep fz st o)).
Proof.
  intros fz st o Ho Hok Hs. destruct o as [x | l x | s box dm a | i t name g | i t name | i];
    cbn [wstep].
  - cbn [fst]. split.
    + intros j w t name l Hj Hf. destruct (Hok _ _ _ _ _ Hj Hf) as (z & Hz).
      exists z. cbn. apply nth_app_some. exact Hz.
    + apply Forall_app. split; auto.
  - cbn [fst]. split.
    + intros j w t name l' Hj Hf. destruct (Hok _ _ _ _ _ Hj Hf) as (z & Hz). unfold field_ok. cbn.
      destruct (Nat.eq_dec l l') as [<-|Hn].
      * eexists. apply nth_upd_same. apply nth_error_Some. congruence.
      * exists z. rewrite nth_upd_other; auto.
    + apply Forall_upd; auto.
  - destruct (new_writer s box dm a) as [w|] eqn:E; cbn [fst]; [|auto]. split; [|exact Hs].
    intros j w' t name l Hj Hf. cbn in Hj.
    destruct (Nat.lt_ge_cases j (length (writers st))) as [Hlt|Hge].
    + rewrite nth_error_app1 in Hj by auto. apply (Hok _ _ _ _ _ Hj Hf).
    + rewrite nth_error_app2 in Hj by auto.
      destruct (j - length (writers st))%nat as [|k]; cbn in Hj; [|destruct k; discriminate].
      inversion Hj; subst. unfold new_writer in E. destruct (negb _); [discriminate|].
      inversion E; subst. cbn in Hf. discriminate.
  - destruct (nth_error (writers st) i) as [w|] eqn:Hw; [|auto].
    destruct (field_dims t name) as [d|]; [|auto]. cbn [fst]. split.
    + apply refs_ok_setter; auto.
    + apply setter_shaped; [auto | destruct g; auto].
  - destruct (nth_error (writers st) i) as [w|] eqn:Hw; cbn [fst]; [|auto]. split; [|exact Hs].
    intros j w' t' n' l Hj Hf. cbn in Hj.
    destruct (upd_writers_cases _ _ _ _ _ Hj) as [(-> & -> & _) | (Hn & Hj')].
    + rewrite set_field_lookup in Hf. destruct (_ && _); [discriminate|]. apply (Hok _ _ _ _ _ Hw Hf).
    + apply (Hok _ _ _ _ _ Hj' Hf).
  - cbn [fst]. apply write_keeps; auto.
Qed.

Lemma reach_ok : forall fz l st, Forall op_shaped l -> refs_ok st -> mem_shaped st ->
  refs_ok (wrun fz st l) /\ mem_shaped (wrun fz st l).
Proof.
  induction l as [|o l IH]; intros st Hl Hok Hs; cbn; [auto|]. inversion Hl; subst.
  destruct (wstep_keeps fz st o) as (A & B); auto.
Qed.

Lemma init_ok : refs_ok init /\ mem_shaped init.
Proof.
  split; [|constructor]. intros i w t name l H. destruct i; discriminate.
Qed.

Lemma reachable : forall fz l, Forall op_shaped l ->
  refs_ok (wrun fz init l) /\ mem_shaped (wrun fz init l).
Proof. intros. apply reach_ok; auto; apply init_ok. Qed.

(** * Histories without changes in place, with one unit system *)

Definition field_good (s : usys) (a : R) (t : nat) (name : string) (x : warr) : Prop :=
  exists d, In (name, d) (required t) /\ dims_eq (wdims x) d /\ wunit x = base_unit s (wdims x)
    /\ acm (wdata x) = Some true /\ exists c, acf (wdata x) = Some c /\ cscale c = Some a.

Definition fields_ok (s : usys) (st : state) : Prop :=
  forall i w, nth_error (writers st) i = Some w -> w_sys w = s
    /\ forall t name l x, w_fields w t name = Some l -> name <> ids_name ->
         nth_error (mem st) l = Some x -> field_good s (w_a w) t name x.

(** Arrays keep their meaning, dimensions and label. *)
Definition same_meaning (x y : warr) : Prop :=
  cgs y = cgs x /\ wdims y = wdims x /\ acf (wdata y) = acf (wdata x) /\ wint y = wint x.

Definition keeps (st st' : state) : Prop :=
  forall l x, nth_error (mem st) l = Some x -> exists x', nth_error (mem st') l = Some x'
    /\ same_meaning x x'.

Lemma same_refl : forall x, same_meaning x x.
Proof. intro. repeat split. Qed.
Lemma same_trans : forall x y z, same_meaning x y -> same_meaning y z -> same_meaning x z.
Proof. intros x y z (?&?&?&?) (?&?&?&?). repeat split; congruence. Qed.
Lemma keeps_refl : forall st, keeps st st.
Proof. intros st l x H. exists x. split; auto. apply same_refl. Qed.
Lemma keeps_trans : forall a b c, keeps a b -> keeps b c -> keeps a c.
Proof.
  intros a b c H1 H2 l x Hx. destruct (H1 _ _ Hx) as (y & Hy & S1).
  destruct (H2 _ _ Hy) as (z & Hz & S2). exists z. split; auto. eapply same_trans; eauto.
Qed.
Lemma keeps_app : forall m m' ws ws', keeps (mkstate m ws) (mkstate (m ++ m') ws').
Proof. intros m m' ws ws' l x H. exists x. split; [apply nth_app_some; auto | apply same_refl]. Qed.

Lemma same_base : forall s x, same_meaning x (convert_to_base s x).
Proof. intros. split; [apply cgs_to_base|]. repeat split. Qed.

Lemma same_conv : forall x y, convert_to_comoving (wdata x) = Ok y -> same_meaning x (set_data x y).
Proof.
  intros x y H. split; [|repeat split; cbn; apply conv_attrs in H; tauto].
  unfold cgs. cbn. rewrite (conv_phys _ _ H). reflexivity.
Qed.

Lemma keeps_upd : forall m l x y ws ws', nth_error m l = Some x -> same_meaning x y ->
  keeps (mkstate m ws) (mkstate (upd l y m) ws').
Proof.
  intros m l x y ws ws' Hx Hs l' x' Hx'. cbn in *. destruct (Nat.eq_dec l l') as [<-|Hn].
  - exists y. split; [apply nth_upd_same; apply nth_error_Some; congruence|].
    assert (x' = x) by congruence. subst. exact Hs.
  - exists x'. rewrite nth_upd_other by auto. split; auto. apply same_refl.
Qed.

Lemma state_eta : forall st, st = mkstate (mem st) (writers st).
Proof. destruct st; reflexivity. Qed.

Lemma setter_keeps : forall st i w t name d g, keeps st (fst (setter st i w t name d g)).
Proof.
  intros. destruct (setter_cases st i w t name d g) as
    [e | l x e Hx Hd Hn Hc | l x c y -> Hx Hd Hn Hf Hs Hy | y Hd _]; cbn [fst].
  - apply keeps_refl.
  - rewrite (state_eta st) at 1. eapply keeps_upd; eauto. apply same_base.
  - rewrite (state_eta st) at 1. eapply keeps_upd; eauto.
    eapply same_trans; [apply same_base|]. apply same_conv. exact Hy.
  - rewrite (state_eta st) at 1. apply keeps_app.
Qed.

Lemma good_base : forall s a t name x, field_good s a t name x ->
  forall y, convert_to_comoving (wdata (convert_to_base s x)) = Ok y ->
  field_good s a t name (set_data (convert_to_base s x) y).
Proof.
  intros s a t name x (d & Hin & Hd & Hu & Hc & c & Hf & Hs) y Hy.
  exists d. cbn. apply conv_attrs in Hy. cbn in Hy. destruct Hy as (H1 & H2 & _).
  repeat split; auto; try apply Hd. exists c. rewrite H2. auto.
Qed.

Lemma setter_fields : forall s st i w t name d g, fields_ok s st -> refs_ok st ->
  nth_error (writers st) i = Some w -> In (name, d) (required t) ->
  fields_ok s (fst (setter st i w t name d g)).
Proof.
  intros s st i w t name d g Hf Hok Hw Hin.
  destruct (Hf _ _ Hw) as (Hsys & Hfw).
  destruct (setter_cases st i w t name d g) as
    [e | l x e Hx Hd Hn Hc | l x c y -> Hx Hd Hn Hcf Hs Hy | y Hd _]; cbn [fst].
  - exact Hf.
  - intros j w' Hj. cbn in Hj. destruct (Hf _ _ Hj) as (Hsys' & Hfj). split; [exact Hsys'|].
    intros t' n' l' x' Hl Hne Hx'. cbn in Hx'.
    destruct (Nat.eq_dec l l') as [<-|Hnl].
    + exfalso. destruct (Hfj _ _ _ _ Hl Hne Hx) as (_ & _ & _ & _ & Hcm & _). contradiction.
    + rewrite nth_upd_other in Hx' by auto. eauto.
  - rewrite Hsys in *.
    assert (Hnew : forall t' n' l' x' (w0 : writer), (w_fields w0 t' n' = Some l' -> n' <> ids_name ->
               forall z, nth_error (mem st) l' = Some z -> field_good s (w_a w0) t' n' z) ->
             w_fields w0 t' n' = Some l' -> n' <> ids_name ->
             nth_error (upd l (set_data (convert_to_base s x) y) (mem st)) l' = Some x' ->
             field_good s (w_a w0) t' n' x').
    { intros t' n' l' x' w0 Hold Hl Hne Hx'. destruct (Nat.eq_dec l l') as [<-|Hnl].
      - rewrite nth_upd_same in Hx' by (apply nth_error_Some; congruence). inversion Hx'; subst x'.
        apply good_base; auto.
      - rewrite nth_upd_other in Hx' by auto. eauto. }
    intros j w' Hj. cbn in Hj.
    destruct (upd_writers_cases _ _ _ _ _ Hj) as [(-> & -> & _) | (Hnj & Hj')].
    + split; [exact Hsys|]. intros t' n' l' x' Hl Hne Hx'. cbn [mem] in Hx'.
      rewrite set_field_lookup in Hl. destruct (Nat.eqb t' t && String.eqb n' name) eqn:Eb.
      * inversion Hl; subst l'. apply andb_true_iff in Eb. destruct Eb as [E1 E2].
        apply Nat.eqb_eq in E1. apply String.eqb_eq in E2. subst t' n'.
        rewrite nth_upd_same in Hx' by (apply nth_error_Some; congruence). inversion Hx'; subst x'.
        exists d. cbn. apply conv_attrs in Hy. cbn in Hy. destruct Hy as (H1 & H2 & _).
        repeat split; auto; try apply Hd. exists c. rewrite H2. auto.
      * apply (Hnew t' n' l' x' w); auto. intros. eauto.
    + destruct (Hf _ _ Hj') as (Hsys' & Hfj). split; [exact Hsys'|].
      intros t' n' l' x' Hl Hne Hx'. cbn [mem] in Hx'. apply (Hnew t' n' l' x' w'); auto.
      intros. eauto.
  - intros j w' Hj. cbn in Hj.
    assert (Hold : forall t' n' l' x' (w0 : writer) j0, nth_error (writers st) j0 = Some w0 ->
             w_fields w0 t' n' = Some l' -> n' <> ids_name ->
             nth_error (mem st ++ [y]) l' = Some x' -> field_good s (w_a w0) t' n' x').
    { intros t' n' l' x' w0 j0 H0 Hl Hne Hx'. destruct (Hok _ _ _ _ _ H0 Hl) as (z & Hz).
      rewrite (nth_app_some _ _ _ _ _ Hz) in Hx'. inversion Hx'; subst.
      destruct (Hf _ _ H0) as (_ & Hfj). eauto. }
    destruct (upd_writers_cases _ _ _ _ _ Hj) as [(-> & -> & _) | (Hnj & Hj')].
    + split; [exact Hsys|]. intros t' n' l' x' Hl Hne Hx'. cbn [mem] in Hx'.
      rewrite set_field_lookup in Hl. destruct (Nat.eqb t' t && String.eqb n' name) eqn:Eb.
      * exfalso. apply andb_true_iff in Eb. destruct Eb as [_ E2]. apply String.eqb_eq in E2. subst n'.
        apply Hne. apply (required_dims _ _ _ Hin). exact Hd.
      * exact (Hold t' n' l' x' w i Hw Hl Hne Hx').
    + destruct (Hf _ _ Hj') as (Hsys' & _). split; [exact Hsys'|].
      intros t' n' l' x' Hl Hne Hx'. eapply Hold; eauto.
Qed.

Lemma opened_fields : forall fz s st i w st' w' names gen, fields_ok s st -> refs_ok st ->
  nth_error (writers st) i = Some w -> opened fz st i w st' w' names gen ->
  forall t name l x, w_fields w' t name = Some l -> name <> ids_name ->
    nth_error (mem st') l = Some x -> field_good s (w_a w') t name x /\ nth_error (mem st) l = Some x.
Proof.
  intros fz s st i w st' w' names gen Hf Hok Hw Ho t name l x Hl Hne Hx.
  destruct Ho as (_ & _ & _ & Hs & Ha & _ & (more & Hm) & Hfs & _).
  rewrite Hfs in Hl by auto. destruct (Hok _ _ _ _ _ Hw Hl) as (z & Hz).
  assert (x = z). { rewrite Hm in Hx. rewrite (nth_app_some _ _ _ _ _ Hz) in Hx. congruence. }
  subst z. rewrite Ha. split; auto. destruct (Hf _ _ Hw) as (_ & H2). eauto.
Qed.

Lemma generate_keeps : forall names st i w used, keeps st (fst (generate_ids st i w names used)).
Proof.
  induction names as [|[t n] rest IH]; intros st i w used; cbn [generate_ids]; [apply keeps_refl|].
  set (x := wrap_plain (w_a w) [n] (arange used (n + used))).
  set (st1 := mkstate (mem st ++ [x]) (writers st)).
  assert (K1 : keeps st st1) by (rewrite (state_eta st); apply keeps_app).
  pose proof (setter_keeps st1 i w t "particle_ids" d_none (GArr (length (mem st)))) as K2.
  destruct (setter st1 i w t "particle_ids" d_none (GArr (length (mem st)))) as [st2 [u|e]];
    cbn [fst] in K2.
  - destruct (nth_error (writers st2) i) as [w2|].
    + eapply keeps_trans; [eapply keeps_trans; eauto|]. apply IH.
    + cbn [fst]. eapply keeps_trans; eauto.
  - cbn [fst]. eapply keeps_trans; eauto.
Qed.

Lemma generate_fields : forall s names st i w used, fields_ok s st -> refs_ok st ->
  nth_error (writers st) i = Some w -> fields_ok s (fst (generate_ids st i w names used)).
Proof.
  induction names as [|[t n] rest IH]; intros st i w used Hf Hok Hw; cbn [generate_ids]; [exact Hf|].
  set (x := wrap_plain (w_a w) [n] (arange used (n + used))).
  set (st1 := mkstate (mem st ++ [x]) (writers st)).
  assert (Hok1 : refs_ok st1).
  { intros j w' t' n' l Hj Hl. destruct (Hok _ _ _ _ _ Hj Hl) as (z & Hz). exists z.
    cbn. apply nth_app_some. exact Hz. }
  assert (Hf1 : fields_ok s st1).
  { intros j w' Hj. destruct (Hf _ _ Hj) as (A & B). split; [exact A|].
    intros t' n' l x' Hl Hne Hx'. cbn in Hx'. destruct (Hok _ _ _ _ _ Hj Hl) as (z & Hz).
    rewrite (nth_app_some _ _ _ _ _ Hz) in Hx'. inversion Hx'; subst. eauto. }
  assert (Hw1 : nth_error (writers st1) i = Some w) by exact Hw.
  pose proof (setter_fields s st1 i w t "particle_ids" d_none (GArr (length (mem st))) Hf1 Hok1 Hw1
                (required_ids t)) as H2.
  pose proof (refs_ok_setter st1 i w t "particle_ids" d_none (GArr (length (mem st))) Hok1 Hw1) as H3.
  destruct (setter st1 i w t "particle_ids" d_none (GArr (length (mem st)))) as [st2 [u|e]];
    cbn [fst] in H2, H3; [|exact H2].
  destruct (nth_error (writers st2) i) as [w2|] eqn:Hw2; [|exact H2].
  apply IH; auto.
Qed.

Lemma write_state : forall fz st i w, nth_error (writers st) i = Some w ->
  fst (write fz st i) = st
  \/ exists names, fst (write fz st i) = fst (generate_ids st i w names 1).
Proof.
  intros fz st i w Hw. unfold write. rewrite Hw.
  destruct (to_write st w ptypes) as [[names gen]|]; [|auto].
  destruct gen.
  - right. exists names. destruct (generate_ids st i w names 1) as [st1 [|]]; reflexivity.
  - left. destruct names; [reflexivity|]. destruct (negb _); reflexivity.
Qed.

Lemma wstep_fields : forall fz s st o, op_shaped o -> no_mutation o -> one_system s o ->
  refs_ok st -> mem_shaped st -> fields_ok s st ->
  fields_ok s (fst (wstep fz st o)) /\ keeps st (fst (wstep fz st o)).
Proof.
  intros fz s st o Hsh Hno Hone Hok Hs Hf.
  destruct o as [x | l x | s' box dm a | i t name g | i t name | i]; cbn [wstep].
  - cbn [fst]. split.
    + intros j w Hj. destruct (Hf _ _ Hj) as (A & B). split; [exact A|].
      intros t' n' l x' Hl Hne Hx'. cbn in Hx'. destruct (Hok _ _ _ _ _ Hj Hl) as (z & Hz).
      rewrite (nth_app_some _ _ _ _ _ Hz) in Hx'. inversion Hx'; subst. eauto.
    + rewrite (state_eta st) at 1. apply keeps_app.
  - contradiction.
  - destruct (new_writer s' box dm a) as [w|] eqn:E; cbn [fst]; [|split; [auto|apply keeps_refl]].
    split.
    + intros j w' Hj. cbn in Hj. destruct (Nat.lt_ge_cases j (length (writers st))) as [Hlt|Hge].
      * rewrite nth_error_app1 in Hj by auto. apply (Hf _ _ Hj).
      * rewrite nth_error_app2 in Hj by auto.
        destruct (j - length (writers st))%nat as [|k]; cbn in Hj; [|destruct k; discriminate].
        inversion Hj; subst w'. unfold new_writer in E. destruct (negb _); [discriminate|].
        inversion E; subst. cbn in Hone. cbn. split; [exact Hone|]. discriminate.
    + intros l x Hx. exists x. split; [exact Hx|apply same_refl].
  - destruct (nth_error (writers st) i) as [w|] eqn:Hw; [|split; [auto|apply keeps_refl]].
    destruct (field_dims t name) as [d|] eqn:Ed; [|split; [auto|apply keeps_refl]]. cbn [fst].
    split; [|apply setter_keeps]. apply setter_fields; auto. apply field_dims_in. exact Ed.
  - destruct (nth_error (writers st) i) as [w|] eqn:Hw; cbn [fst]; [|split; [auto|apply keeps_refl]].
    split; [|intros l x Hx; exists x; split; [exact Hx|apply same_refl]].
    intros j w' Hj. cbn in Hj.
    destruct (upd_writers_cases _ _ _ _ _ Hj) as [(-> & -> & _) | (Hn & Hj')].
    + destruct (Hf _ _ Hw) as (A & B). split; [exact A|]. intros t' n' l x Hl Hne Hx.
      rewrite set_field_lookup in Hl. destruct (_ && _); [discriminate|]. apply (B _ _ _ _ Hl Hne Hx).
    + apply (Hf _ _ Hj').
  - cbn [fst]. destruct (nth_error (writers st) i) as [w|] eqn:Hw.
    + destruct (write_state fz st i w Hw) as [-> | (names & ->)]; [split; [auto|apply keeps_refl]|].
      split; [apply generate_fields; auto | apply generate_keeps].
    + unfold write. rewrite Hw. split; [auto|apply keeps_refl].
Qed.

Lemma run_fields : forall fz s l st, Forall op_shaped l -> Forall no_mutation l ->
  Forall (one_system s) l -> refs_ok st -> mem_shaped st -> fields_ok s st ->
  fields_ok s (wrun fz st l) /\ keeps st (wrun fz st l).
Proof.
  induction l as [|o l IH]; intros st H1 H2 H3 Hok Hs Hf; cbn; [split; [auto|apply keeps_refl]|].
  inversion H1; inversion H2; inversion H3; subst.
  destruct (wstep_keeps fz st o) as (A & B); auto.
  destruct (wstep_fields fz s st o) as (C & D); auto.
  destruct (IH (fst (wstep fz st o))) as (E & F); auto. split; auto. eapply keeps_trans; eauto.
Qed.

Lemma wrun_app : forall fz l1 l2 st, wrun fz st (l1 ++ l2) = wrun fz (wrun fz st l1) l2.
Proof. induction l1; intros; cbn; auto. Qed.

Lemma init_fields : forall s, fields_ok s init.
Proof. intros s i w H. destruct i; discriminate. Qed.

(** * Reading a field back *)

Lemma load_units_base : forall s at_ d,
  (at_M at_ == dM d)%Q -> (at_L at_ == dL d)%Q -> (at_t at_ == dt d)%Q -> (at_T at_ == dT d)%Q ->
  (at_I at_ == dI d)%Q -> (dI d == 0)%Q -> (dX d == 0)%Q ->
  fst (load_units (mkusys (uM s) (uL s) (ut s) (uT s) 1 1) at_) = base_unit s d.
Proof.
  intros s at_ d HM HL Ht HT HI HI0 HX0. unfold load_units. cbn [fst uM uL ut uT uI uX].
  assert (P : forall u e e', (e == e')%Q -> (if Qeq_bool e 0 then 1 else upow u e) = upow u e').
  { intros u e e' He. destruct (Qeq_bool e 0) eqn:E.
    - apply Qeq_bool_iff in E. symmetry. apply upow_zero. rewrite <- He. exact E.
    - apply upow_Qeq. exact He. }
  rewrite (P _ _ _ HM), (P _ _ _ HL), (P _ _ _ Ht), (P _ _ _ HT).
  assert (EI : Qeq_bool (at_I at_) 0 = true) by (apply Qeq_bool_iff; rewrite HI; exact HI0).
  rewrite EI. unfold base_unit. rewrite (upow_zero (uI s) _ HI0), (upow_zero (uX s) _ HX0). ring.
Qed.

(** What is written for a field, and how it reads back. *)
Lemma read_written : forall fz ru s f t name x at_ a e,
  field_good s a t name x -> get_attributes fz x = Ok at_ -> exponent x = Some e ->
  f_a f = a -> f_units f = mkusys (uM s) (uL s) (ut s) (uT s) 1 1 -> exact_units ru s ->
  let y := read_field ru f (mkdset (wshape x) (avals (wdata x)) at_) in
  dims_eq (wdims y) (wdims x) /\ wunit y = wunit x /\ wshape y = wshape x
  /\ exponent y = Some (written_exponent fz (wint x) e)
  /\ cgs y = map (fun v => Rpower a (written_exponent fz (wint x) e) / Rpower a e * v) (cgs x).
Proof.
  intros fz ru s f t name x at_ a e (d & Hin & Hd & Hu & Hc & c & Hcf & Hs) Ha He Hfa Hfu Hex y.
  destruct (required_dims _ _ _ Hin) as (_ & _ & HI & HX).
  unfold exponent in He. rewrite Hcf in He.
  unfold get_attributes in Ha. rewrite Hcf in Ha. unfold a_factor in Ha. rewrite He, Hs in Ha.
  inversion Ha; subst at_. clear Ha.
  assert (HI' : (dI (wdims x) == 0)%Q) by (destruct Hd as (_&_&_&_&D5&_); rewrite D5; exact HI).
  assert (HX' : (dX (wdims x) == 0)%Q) by (destruct Hd as (_&_&_&_&_&D6); rewrite D6; exact HX).
  assert (Hyu : wunit y = wunit x).
  { unfold y, read_field. cbn [wunit]. rewrite Hfu. unfold exact_units in Hex. cbv zeta in Hex.
    rewrite Hex. rewrite (load_units_base s _ (wdims x)); cbn; auto; try reflexivity. }
  split; [|split; [exact Hyu|split; [reflexivity|split; [reflexivity|]]]].
  - unfold y, read_field, dims_eq. cbn. repeat split; try reflexivity. symmetry. exact HX'.
  - unfold cgs. rewrite Hyu. unfold phys. rewrite Hc, Hcf.
    destruct c as [ce cs]. cbn in He, Hs. subst ce cs.
    unfold y, read_field. cbn [wdata acm acf avals cf_create ds_vals ds_attrs at_a]. rewrite Hfa.
    rewrite !map_map. apply map_ext. intro v.
    field. apply Rpower_nz.
Qed.

(** * Looking at fields after IDs were generated *)

Lemma opened_lookup : forall fz st i w st' w' names gen, refs_ok st ->
  nth_error (writers st) i = Some w -> opened fz st i w st' w' names gen ->
  forall t name, name <> ids_name -> lookup st' w' t name = lookup st w t name.
Proof.
  intros fz st i w st' w' names gen Hok Hw Ho t name Hne.
  destruct Ho as (_ & _ & _ & _ & _ & _ & (more & Hm) & Hfs & _).
  unfold lookup. rewrite Hfs by auto. destruct (w_fields w t name) as [l|] eqn:Hl; [|reflexivity].
  destruct (Hok _ _ _ _ _ Hw Hl) as (z & Hz). rewrite Hm, Hz. apply nth_app_some. exact Hz.
Qed.

Lemma opened_type : forall fz st i w st' w' names gen t n, refs_ok st ->
  nth_error (writers st) i = Some w -> opened fz st i w st' w' names gen ->
  In (t, n) names -> forall name d, In (name, d) (required t) ->
  exists x tl, lookup st' w' t name = Some x /\ wshape x = n :: tl.
Proof.
  intros fz st i w st' w' names gen t n Hok Hw Ho Hin name d Hd.
  pose proof Ho as (Et & _ & _ & _ & _ & _ & _ & _ & H0 & H1).
  destruct (to_write_spec _ _ _ _ _ Et) as (_ & I2 & _).
  destruct (I2 _ _ Hin) as (m & (T1 & T2 & T3) & Hm).
  destruct (String.eqb name ids_name) eqn:En.
  - apply String.eqb_eq in En. subst name. destruct gen.
    + destruct (H1 eq_refl) as (_ & Hids).
      destruct (Hids t) as (l & n0 & Hin0 & Hl & lo & Hx).
      { apply in_map_iff. exists (t, n). auto. }
      assert (n0 = n).
      { destruct (names_types _ _ _ _ Et) as (N1 & _). clear - N1 Hin Hin0.
        induction names as [|[a b] r IH]; [destruct Hin|]. cbn in *. inversion N1; subst.
        destruct Hin as [E|Hin], Hin0 as [E0|Hin0]; try congruence.
        - inversion E; subst. exfalso. apply H1. apply in_map_iff. exists (t, n0). auto.
        - inversion E0; subst. exfalso. apply H1. apply in_map_iff. exists (t, n). auto.
        - auto. }
      subst n0. unfold lookup. rewrite Hl, Hx. eexists. exists []. split; reflexivity.
    + destruct (H0 eq_refl) as (-> & -> & _). apply T2.
      destruct m; auto. specialize (Hm eq_refl). discriminate.
  - assert (Hne : name <> ids_name) by (intro E; subst; rewrite String.eqb_refl in En; discriminate).
    rewrite (opened_lookup _ _ _ _ _ _ _ _ Hok Hw Ho t name Hne). eapply T1; eauto.
Qed.

Lemma count_of_in : forall names t n, NoDup (map fst names) -> In (t, n) names -> count_of names t = n.
Proof.
  intros names t n Hd Hin. unfold count_of.
  induction names as [|[a b] r IH]; [destruct Hin|]. cbn in *. inversion Hd; subst.
  destruct Hin as [E|Hin].
  - inversion E; subst. rewrite Nat.eqb_refl. reflexivity.
  - destruct (Nat.eqb a t) eqn:Ea; [|auto]. apply Nat.eqb_eq in Ea. subst. exfalso.
    apply H1. apply in_map_iff. exists (t, n). auto.
Qed.

Lemma count_of_out : forall names t, ~ In t (map fst names) -> count_of names t = 0%Z.
Proof.
  intros names t H. unfold count_of. destruct (find _ names) as [[a b]|] eqn:E; [|reflexivity].
  apply find_some in E. cbn in E. destruct E as [E1 E2]. apply Nat.eqb_eq in E2. subst.
  exfalso. apply H. apply in_map_iff. exists (t, b). auto.
Qed.

Lemma all_ok_in : forall A (l : list (res A)) r x, all_ok l = Ok r -> In x l -> exists a, x = Ok a.
Proof.
  induction l as [|y l IH]; intros r x H Hin; [destruct Hin|]. cbn in H.
  destruct y as [a|e]; [|discriminate]. destruct (all_ok l) as [r'|] eqn:E; [|discriminate].
  destruct Hin as [<-|Hin]; eauto.
Qed.

Lemma all_ok_first : forall A (l : list (res A)) e, all_ok l = Err e -> In (Err e) l.
Proof.
  induction l as [|y l IH]; intros e H; cbn in H; [discriminate|].
  destruct y as [a|e']; [|inversion H; subst; left; reflexivity].
  destruct (all_ok l) eqn:E; [discriminate|]. inversion H; subst. right. auto.
Qed.

Lemma shaped_nonempty : forall x n tl, shaped x -> wshape x = n :: tl -> avals (wdata x) <> [] -> (0 < n)%Z.
Proof.
  intros x n tl (H1 & H2) Hs Hne. rewrite Hs in *. cbn in H2. inversion H1; subst.
  destruct (Z.eq_dec n 0) as [->|]; [|lia]. exfalso. apply Hne.
  unfold zlen in H2. destruct (avals (wdata x)); [reflexivity|]. cbn in H2. lia.
Qed.

(** * Running concrete histories *)

Lemma wrun_assign : forall fz st i t name l rest w d x,
  nth_error (writers st) i = Some w -> field_dims t name = Some d ->
  nth_error (mem st) l = Some x -> check_scale (w_a w) x = Ok tt ->
  dims_eqb d d_none = false -> dims_eqb (wdims x) d = true -> acm (wdata x) = Some true ->
  wrun fz st (OAssign i t name (GArr l) :: rest)
  = wrun fz (mkstate (upd l (convert_to_base (w_sys w) x) (mem st))
                     (upd i (set_field w t name (Some l)) (writers st))) rest.
Proof.
  intros fz st i t name l rest w d x Hw Hd Hx Hs Hn He Hc. cbn [wrun wstep].
  rewrite Hw, Hd. cbn [fst]. unfold setter. rewrite Hx, Hs, Hn, He. cbn [negb].
  unfold convert_to_comoving. cbn [convert_to_base wdata acm]. rewrite Hc.
  unfold set_data, convert_to_base. cbn. rewrite Hc. reflexivity.
Qed.


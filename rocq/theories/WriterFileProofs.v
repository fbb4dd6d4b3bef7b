From Coq Require Import String List ZArith Bool Reals QArith Qreals Lia Lra Sorting.Sorted.
From Verif Require Import Base BaseLemmas CosmoModel CosmoSpec CosmoProofs CosmoHeapProofs.
From Verif Require Import WriterModel WriterSpec WriterProofs.
Import ListNotations.
Open Scope R_scope.

Definition ids_name : string := "particle_ids".

(** * Required fields *)

Lemma required_cases : forall t, required t = required 0 \/ required t = required 4 \/ required t = shared.
Proof. intro t. do 5 (destruct t as [|t]; [cbn; auto|]). cbn; auto. Qed.

Lemma required_ids : forall t, In (ids_name, d_none) (required t).
Proof. intro t. destruct (required_cases t) as [-> | [-> | ->]]; cbn; tauto. Qed.

Lemma required_coords : forall t, exists d, In ("coordinates"%string, d) (required t).
Proof. intro t. exists d_length. destruct (required_cases t) as [-> | [-> | ->]]; cbn; tauto. Qed.

Lemma required_masses : forall t, exists d, In ("masses"%string, d) (required t).
Proof. intro t. exists d_mass. destruct (required_cases t) as [-> | [-> | ->]]; cbn; tauto. Qed.

Lemma required_dims : forall t name d, In (name, d) (required t) ->
  field_dims t name = Some d /\ (dims_eq d d_none <-> name = ids_name)
  /\ (dI d == 0)%Q /\ (dX d == 0)%Q.
Proof.
  intros t name d H. unfold field_dims.
  destruct (required_cases t) as [E | [E | E]]; rewrite E in *; cbn in H;
    repeat (destruct H as [H|H]; [injection H as <- <-; cbn; split; [reflexivity|];
      split; [split; [intro Hd; destruct Hd as (?&?&?&?&?&?); cbn in *;
                      first [reflexivity | exfalso; lra | exfalso;
                             match goal with Hq : (_ == _)%Q |- _ => discriminate Hq end]
                     | intro Hn; first [discriminate Hn | repeat split; reflexivity]]
             | split; reflexivity] |]); contradiction.
Qed.

Lemma field_dims_in : forall t name d, field_dims t name = Some d -> In (name, d) (required t).
Proof.
  intros t name d H. unfold field_dims in H.
  destruct (find _ (required t)) as [[n' d']|] eqn:E; [|discriminate].
  apply find_some in E. cbn in E. destruct E as [E1 E2]. apply String.eqb_eq in E2.
  injection H as <-. subst. exact E1.
Qed.

Lemma empty_iff : forall w t, check_empty w t = false <-> populated w t.
Proof.
  intros w t. unfold check_empty, populated. split.
  - intro H. apply not_true_iff_false in H.
    assert (E : existsb (fun r => match w_fields w t (fst r) with None => false | Some _ => true end)
                        (required t) = true).
    { apply not_false_iff_true. intro Hc. apply H. apply forallb_forall. intros r Hr.
      destruct (w_fields w t (fst r)) eqn:E; auto. exfalso.
      assert (existsb (fun r => match w_fields w t (fst r) with None => false | Some _ => true end)
                        (required t) = true).
      { apply existsb_exists. exists r. split; auto. rewrite E. reflexivity. }
      congruence. }
    apply existsb_exists in E. destruct E as ([n d] & Hin & Hs). cbn in Hs.
    exists n, d. split; auto. destruct (w_fields w t n); congruence.
  - intros (n & d & Hin & Hf). apply not_true_iff_false. intro Hc.
    rewrite forallb_forall in Hc. specialize (Hc _ Hin). cbn in Hc.
    destruct (w_fields w t n); congruence.
Qed.

(** * [check_consistent] and the list of types *)

Lemma field_sizes_spec : forall st w t reqs ns m, field_sizes st w t reqs = Ok (ns, m) ->
  (forall name d, In (name, d) reqs -> name <> ids_name ->
     exists x n tl, lookup st w t name = Some x /\ wshape x = n :: tl /\ In n ns)
  /\ (forall d, In (ids_name, d) reqs ->
        (m = false -> exists x n tl, lookup st w t ids_name = Some x /\ wshape x = n :: tl /\ In n ns)
        /\ (lookup st w t ids_name = None -> m = true))
  /\ (m = true -> lookup st w t ids_name = None)
  /\ (forall n, In n ns -> exists name d x tl, In (name, d) reqs
        /\ lookup st w t name = Some x /\ wshape x = n :: tl).
Proof.
  induction reqs as [|[name d] rest IH]; intros ns m H; cbn [field_sizes] in H.
  - inversion H; subst. repeat split; try (intros; contradiction). intro; discriminate.
  - destruct (lookup st w t name) as [x|] eqn:Ex.
    + destruct (wshape x) as [|n tl] eqn:Es; [discriminate|].
      destruct (bind_ok _ _ _ _ _ H) as ([ns0 m0] & H0 & H1). cbn in H1. inversion H1; subst.
      destruct (IH _ _ H0) as (I1 & I2 & I3 & I4).
      split; [|split; [|split]].
      * intros nm d0 [E|Hin] Hne.
        -- injection E as <- <-. exists x, n, tl. cbn. auto.
        -- destruct (I1 _ _ Hin Hne) as (y & k & tl' & ? & ? & ?). exists y, k, tl'. cbn. auto.
      * intros d0 [E|Hin].
        -- injection E as -> _. split; [|congruence].
           intros _. exists x, n, tl. cbn. auto.
        -- destruct (I2 _ Hin) as (J1 & J2). split; [|auto].
           intro Hm. destruct (J1 Hm) as (y & k & tl' & ? & ? & ?). exists y, k, tl'. cbn. auto.
      * exact I3.
      * intros k [<-|Hk].
        -- exists name, d, x, tl. cbn. auto.
        -- destruct (I4 _ Hk) as (nm & d' & y & tl' & ? & ? & ?). exists nm, d', y, tl'. cbn. auto.
    + destruct (String.eqb name "particle_ids") eqn:En; [|discriminate].
      apply String.eqb_eq in En. subst name.
      destruct (bind_ok _ _ _ _ _ H) as ([ns0 m0] & H0 & H1). cbn in H1. inversion H1; subst.
      destruct (IH _ _ H0) as (I1 & I2 & I3 & I4).
      split; [|split; [|split]].
      * intros nm d0 [E|Hin] Hne; [injection E as <- <-; exfalso; apply Hne; reflexivity|].
        apply (I1 _ _ Hin Hne).
      * intros d0 _. split; [discriminate|auto].
      * intros _. exact Ex.
      * intros k Hk. destruct (I4 _ Hk) as (nm & d' & y & tl' & ? & ? & ?).
        exists nm, d', y, tl'. cbn. auto.
Qed.

(** A consistent type: all fields there (perhaps without the IDs) with the same first
    dimension [n]. *)
Definition type_ok (st : state) (w : writer) (t : nat) (n : Z) (missing : bool) : Prop :=
  (forall name d, In (name, d) (required t) -> name <> ids_name ->
     exists x tl, lookup st w t name = Some x /\ wshape x = n :: tl)
  /\ (missing = false -> exists x tl, lookup st w t ids_name = Some x /\ wshape x = n :: tl)
  /\ (missing = true <-> lookup st w t ids_name = None).

Lemma check_consistent_ok : forall st w t n m, check_consistent st w t = Ok (n, m) ->
  type_ok st w t n m.
Proof.
  intros st w t n m H. unfold check_consistent in H.
  destruct (bind_ok _ _ _ _ _ H) as ([ns mm] & H0 & H1). cbn [fst snd] in H1.
  destruct ns as [|n0 ns]; [discriminate|].
  destruct (forallb (Z.eqb n0) (n0 :: ns)) eqn:Ef; cbn [negb] in H1; [|discriminate].
  destruct (lookup st w t "coordinates") as [x|]; [|discriminate].
  destruct (lookup st w t "velocities") as [y|]; [|discriminate].
  destruct (zlist_eqb _ _); [|discriminate]. inversion H1; subst n0 mm. clear H1 H.
  destruct (field_sizes_spec _ _ _ _ _ _ H0) as (I1 & I2 & I3 & I4).
  assert (Hall : forall k, In k (n :: ns) -> k = n).
  { intros k Hk. rewrite forallb_forall in Ef. specialize (Ef _ Hk). apply Z.eqb_eq in Ef. auto. }
  split; [|split].
  - intros name d Hin Hne. destruct (I1 _ _ Hin Hne) as (z & k & tl & Hz & Hs & Hk).
    exists z, tl. rewrite (Hall _ Hk) in Hs. auto.
  - intro Hm. destruct (I2 _ (required_ids t)) as (J1 & _).
    destruct (J1 Hm) as (z & k & tl & Hz & Hs & Hk). exists z, tl. rewrite (Hall _ Hk) in Hs. auto.
  - split; [exact I3|]. intro Hl. apply (proj2 (I2 _ (required_ids t)) Hl).
Qed.

Lemma to_write_spec : forall st w ts names gen, to_write st w ts = Ok (names, gen) ->
  map fst names = filter (fun t => negb (check_empty w t)) ts
  /\ (forall t n, In (t, n) names -> exists m, type_ok st w t n m /\ (m = true -> gen = true))
  /\ (gen = true -> exists t n, In (t, n) names /\ type_ok st w t n true).
Proof.
  induction ts as [|t rest IH]; intros names gen H; cbn [to_write] in H.
  - inversion H; subst. cbn. repeat split; try contradiction; discriminate.
  - cbn [filter]. destruct (check_empty w t) eqn:Ee; cbn [negb].
    + apply IH. exact H.
    + destruct (bind_ok _ _ _ _ _ H) as ([n m] & Hc & H1).
      destruct (bind_ok _ _ _ _ _ H1) as ([q g] & Hq & H2). cbn in H2. inversion H2; subst. clear H2.
      destruct (IH _ _ Hq) as (I1 & I2 & I3). apply check_consistent_ok in Hc.
      split; [cbn; rewrite I1; reflexivity|]. split.
      * intros t0 n0 [E|Hin].
        -- injection E as <- <-. exists m. split; auto. intros ->. reflexivity.
        -- destruct (I2 _ _ Hin) as (m0 & ? & Hm). exists m0. split; auto.
           intro E. rewrite (Hm E). apply orb_true_r.
      * intro Hg. apply orb_true_iff in Hg. destruct Hg as [->| ->].
        -- exists t, n. cbn. auto.
        -- destruct (I3 eq_refl) as (t0 & n0 & ? & ?). exists t0, n0. cbn. auto.
Qed.

Lemma names_types : forall st w names gen, to_write st w ptypes = Ok (names, gen) ->
  NoDup (map fst names) /\ (forall t, In t (map fst names) <-> In t ptypes /\ populated w t)
  /\ StronglySorted lt (map fst names).
Proof.
  intros st w names gen H. apply to_write_spec in H. destruct H as (-> & _ & _).
  split; [|split].
  - apply NoDup_filter. apply seq_NoDup.
  - intro t. rewrite filter_In, negb_true_iff, empty_iff. tauto.
  - assert (S : StronglySorted lt ptypes) by (cbn; repeat constructor).
    clear st gen. induction S as [|x l Hs IH Hf]; cbn; [constructor|].
    destruct (negb _); [|exact IH]. constructor; [exact IH|].
    apply Forall_forall. intros y Hy. apply filter_In in Hy. destruct Hy as [Hy _].
    rewrite Forall_forall in Hf. auto.
Qed.

(** * Memory is shaped *)

Definition mem_shaped (st : state) : Prop := Forall shaped (mem st).

Lemma Forall_upd : forall A (P : A -> Prop) l i x, Forall P l -> P x -> Forall P (upd i x l).
Proof.
  induction l as [|h t IH]; intros [|i] x Hl Hx; cbn; auto; inversion Hl; subst; constructor; auto.
Qed.

Lemma shaped_base : forall s x, shaped x -> shaped (convert_to_base s x).
Proof.
  intros s x [H1 H2]. split; cbn; auto. unfold zlen in *. rewrite map_length. auto.
Qed.

Lemma shaped_set : forall x y, shaped x -> length (avals y) = length (avals (wdata x)) -> shaped (set_data x y).
Proof. intros x y [H1 H2] Hl. split; cbn; auto. unfold zlen in *. rewrite Hl. auto. Qed.

Lemma shaped_wrap_plain : forall a s v, Forall (fun n => (0 <= n)%Z) s ->
  zlen v = fold_right Z.mul 1%Z s -> shaped (wrap_plain a s v).
Proof. intros. split; cbn; auto. Qed.

Lemma setter_shaped : forall st i w t name d g, mem_shaped st ->
  (match g with GPlain s v => Forall (fun n => (0 <= n)%Z) s /\ zlen v = fold_right Z.mul 1%Z s
              | _ => True end) ->
  mem_shaped (fst (setter st i w t name d g)).
Proof.
  intros st i w t name d g Hm Hg. unfold mem_shaped in *.
  destruct (setter_cases st i w t name d g) as
    [e | l x e Hx Hd Hn Hc | l x c y -> Hx Hd Hn Hf Hs Hy | y Hd (shape & v & Hsh & Hck & Hor)];
    cbn [fst mem]; auto.
  - apply Forall_upd; auto. apply shaped_base. rewrite Forall_forall in Hm. apply Hm.
    eapply nth_error_In; eauto.
  - apply Forall_upd; auto. apply shaped_set.
    + apply shaped_base. rewrite Forall_forall in Hm. apply Hm. eapply nth_error_In; eauto.
    + apply conv_attrs in Hy. tauto.
  - apply Forall_app. split; auto. constructor; auto.
    destruct Hor as [(-> & ->) | (l & x & -> & Hx & Hs & Hv & _ & Hw)].
    + destruct Hg. apply shaped_wrap_plain; auto.
    + apply wrap_dimensionless_shape in Hw. destruct Hw as (W1 & _ & W2).
      rewrite Forall_forall in Hm. destruct (Hm x (nth_error_In _ _ Hx)) as (S1 & S2).
      split; [rewrite W1; auto|]. unfold zlen in *. rewrite W1, W2. auto.
Qed.

Lemma zlen_arange : forall a n, (0 <= n)%Z -> zlen (arange a (n + a)) = n.
Proof.
  intros a n Hn. unfold zlen, arange, zrange. rewrite !map_length, seq_length. lia.
Qed.

(** * Contents of the file *)

Lemma write_fields_spec : forall fz st w t reqs g, write_fields fz st w t reqs = Ok g ->
  map fst g = map fst reqs
  /\ (forall name d, In (name, d) g -> exists x at_, lookup st w t name = Some x
        /\ get_attributes fz x = Ok at_ /\ d = mkdset (wshape x) (avals (wdata x)) at_).
Proof.
  induction reqs as [|[name dd] rest IH]; intros g H; cbn [write_fields] in H.
  - inversion H. cbn. split; auto. contradiction.
  - destruct (lookup st w t name) as [x|] eqn:Ex; [|discriminate].
    destruct (bind_ok _ _ _ _ _ H) as (at_ & Ha & H1).
    destruct (bind_ok _ _ _ _ _ H1) as (r & Hr & H2). inversion H2; subst. clear H2.
    destruct (IH _ Hr) as (I1 & I2). cbn. split; [rewrite I1; reflexivity|].
    intros nm d [E|Hin]; [injection E as <- <-; eauto 6 | eauto].
Qed.

Lemma write_groups_spec : forall fz st w names gs, write_groups fz st w names = Ok gs ->
  map fst gs = map fst names
  /\ (forall t g, In (t, g) gs -> write_fields fz st w t (required t) = Ok g).
Proof.
  induction names as [|[t n] rest IH]; intros gs H; cbn [write_groups] in H.
  - inversion H. cbn. split; auto. contradiction.
  - destruct (bind_ok _ _ _ _ _ H) as (g & Hg & H1).
    destruct (bind_ok _ _ _ _ _ H1) as (r & Hr & H2). inversion H2; subst. clear H2.
    destruct (IH _ Hr) as (I1 & I2). cbn. split; [rewrite I1; reflexivity|].
    intros t0 g0 [E|Hin]; [injection E as <- <-; auto | auto].
Qed.

Definition vals_of (st : state) (w : writer) (t : nat) (name : string) : list R :=
  match lookup st w t name with Some x => avals (wdata x) | None => [] end.

Lemma group_ids : forall fz st w t g, write_fields fz st w t (required t) = Ok g ->
  concat (map (fun nd => if String.eqb (fst nd) "particle_ids" then ds_vals (snd nd) else []) g)
  = vals_of st w t ids_name.
Proof.
  intros fz st w t g H.
  assert (Hgen : forall reqs g, write_fields fz st w t reqs = Ok g ->
    concat (map (fun nd => if String.eqb (fst nd) "particle_ids" then ds_vals (snd nd) else []) g)
    = concat (map (fun r => if String.eqb (fst r) "particle_ids" then vals_of st w t (fst r) else [])
                  reqs)).
  { clear. induction reqs as [|[name dd] rest IH]; intros g H; cbn [write_fields] in H.
    - inversion H. reflexivity.
    - destruct (lookup st w t name) as [x|] eqn:Ex; [|discriminate].
      destruct (bind_ok _ _ _ _ _ H) as (at_ & Ha & H1).
      destruct (bind_ok _ _ _ _ _ H1) as (r & Hr & H2). inversion H2; subst. clear H2.
      cbn [map concat fst snd ds_vals]. rewrite (IH _ Hr). f_equal.
      unfold vals_of. rewrite Ex. reflexivity. }
  rewrite (Hgen _ _ H). destruct (required_cases t) as [-> | [-> | ->]]; cbn;
    rewrite ?app_nil_r; reflexivity.
Qed.

Lemma write_file_ids : forall fz st w names f, write_file fz st w names = Written f ->
  file_ids f = all_ids st w names.
Proof.
  intros fz st w names f H. unfold write_file in H.
  destruct (all_ok _) as [ms|]; [|discriminate].
  destruct (write_groups fz st w names) as [gs|] eqn:Eg; [|discriminate].
  inversion H; subst f. clear H. unfold file_ids, all_ids. cbn [f_groups]. f_equal.
  revert gs Eg. induction names as [|[t n] rest IH]; intros gs Eg; cbn [write_groups] in Eg.
  - inversion Eg. reflexivity.
  - destruct (bind_ok _ _ _ _ _ Eg) as (g & Hg & H1).
    destruct (bind_ok _ _ _ _ _ H1) as (r & Hr & H2). inversion H2; subst. clear H2.
    cbn [map fst snd]. rewrite (IH _ Hr), (group_ids _ _ _ _ _ Hg). reflexivity.
Qed.

Lemma count_sum : forall names, NoDup (map fst names) -> (forall t, In t (map fst names) -> In t ptypes) ->
  sumZ (map (count_of names) ptypes) = sumZ (map snd names).
Proof.
  intros names.
  assert (Hg : forall ts, NoDup ts -> forall names, NoDup (map fst names) ->
    (forall t, In t (map fst names) -> In t ts) ->
    sumZ (map (count_of names) ts) = sumZ (map snd names)).
  { clear. intros ts Hts names. induction names as [|[t n] rest IH]; intros Hd Hin.
    - cbn. induction ts as [|t ts IHt]; cbn; auto. inversion Hts; subst. apply IHt; auto.
      intros ? [].
    - inversion Hd as [|? ? Hd1 Hd2]; subst.
      assert (E : sumZ (map (count_of ((t, n) :: rest)) ts) = (n + sumZ (map (count_of rest) ts))%Z).
      { assert (Ht : In t ts) by (apply Hin; cbn; auto). clear IH Hin Hd2 Hd.
        assert (Hz : count_of rest t = 0%Z).
        { unfold count_of. destruct (find _ rest) as [[t' n']|] eqn:Ef; auto.
          apply find_some in Ef. destruct Ef as [Ef1 Ef2]. cbn in Ef2. apply Nat.eqb_eq in Ef2.
          subst. exfalso. apply Hd1. apply in_map_iff. exists (t, n'). auto. }
        assert (Ho : forall t', t' <> t -> count_of ((t, n) :: rest) t' = count_of rest t').
        { intros t' Hne. unfold count_of. cbn [find fst].
          destruct (Nat.eqb t t') eqn:Et; auto. apply Nat.eqb_eq in Et. congruence. }
        assert (Hs : count_of ((t, n) :: rest) t = n).
        { unfold count_of. cbn [find fst snd]. rewrite Nat.eqb_refl. reflexivity. }
        induction ts as [|t0 ts IHt]; [destruct Ht|]. inversion Hts; subst. cbn [map sumZ fold_right].
        fold (sumZ (map (count_of ((t, n) :: rest)) ts)). fold (sumZ (map (count_of rest) ts)).
        destruct (Nat.eq_dec t0 t) as [->|Hne].
        - rewrite Hs, Hz.
          assert (Heq : map (count_of ((t, n) :: rest)) ts = map (count_of rest) ts).
          { apply map_ext_in. intros t' Hin'. apply Ho. intro; subst; contradiction. }
          rewrite Heq. lia.
        - rewrite (Ho _ Hne). destruct Ht as [Ht|Ht]; [congruence|]. rewrite IHt; auto. lia. }
      rewrite E, IH; auto.
      intros t' Ht'. apply Hin. cbn. auto. }
  intros. apply Hg; auto. apply seq_NoDup.
Qed.

(** * Outcome of [write] *)

Lemma lookup_none : forall st w i t name, refs_ok st -> nth_error (writers st) i = Some w ->
  (lookup st w t name = None <-> w_fields w t name = None).
Proof.
  intros st w i t name Hok Hw. unfold lookup. split.
  - destruct (w_fields w t name) as [l|] eqn:E; auto. intro Hn.
    destruct (Hok _ _ _ _ _ Hw E) as (x & Hx). congruence.
  - intros ->. reflexivity.
Qed.

Lemma gen_iff : forall st w i names gen, refs_ok st -> nth_error (writers st) i = Some w ->
  to_write st w ptypes = Ok (names, gen) -> (gen = true <-> ids_missing w).
Proof.
  intros st w i names gen Hok Hw H.
  destruct (to_write_spec _ _ _ _ _ H) as (I1 & I2 & I3).
  destruct (names_types _ _ _ _ H) as (_ & N2 & _). split.
  - intro Hg. destruct (I3 Hg) as (t & n & Hin & (_ & _ & Hm)).
    assert (Ht : In t (map fst names)) by (apply in_map_iff; exists (t, n); auto).
    apply N2 in Ht. exists t. repeat split; try tauto.
    apply (lookup_none st w i); auto. apply Hm. reflexivity.
  - intros (t & Ht & Hp & Hn).
    assert (Hin : In t (map fst names)) by (apply N2; auto).
    apply in_map_iff in Hin. destruct Hin as ([t0 n] & E & Hin). cbn in E. subst t0.
    destruct (I2 _ _ Hin) as (m & (_ & _ & Hm) & Hg). apply Hg, Hm.
    apply (lookup_none st w i); auto.
Qed.

Lemma names_nonneg : forall st w names gen, mem_shaped st -> to_write st w ptypes = Ok (names, gen) ->
  Forall (fun p => (0 <= snd p)%Z) names.
Proof.
  intros st w names gen Hs H. destruct (to_write_spec _ _ _ _ _ H) as (_ & I2 & _).
  apply Forall_forall. intros [t n] Hin. cbn. destruct (I2 _ _ Hin) as (m & (T1 & _ & _) & _).
  destruct (required_coords t) as (d & Hd).
  destruct (T1 _ _ Hd) as (x & tl & Hx & Hsh); [discriminate|].
  unfold lookup in Hx. destruct (w_fields w t "coordinates") as [l|]; [|discriminate].
  unfold mem_shaped in Hs. rewrite Forall_forall in Hs.
  destruct (Hs _ (nth_error_In _ _ Hx)) as (Hp & _). rewrite Hsh in Hp. inversion Hp; auto.
Qed.

Lemma given_all_ids : forall st w names gen, to_write st w ptypes = Ok (names, gen) ->
  given_ids st w = all_ids st w names.
Proof.
  intros st w names gen H. destruct (to_write_spec _ _ _ _ _ H) as (I1 & _ & _). clear H.
  unfold given_ids, all_ids. rewrite <- (map_map fst (fun t => match lookup st w t "particle_ids" with
                                              | Some x => avals (wdata x) | None => [] end)).
  rewrite I1. clear I1. generalize ptypes. intro ts. induction ts as [|t ts IH]; [reflexivity|].
  cbn [map concat filter]. rewrite IH. destruct (check_empty w t) eqn:Ee; cbn [negb].
  - assert (E : w_fields w t "particle_ids" = None).
    { unfold check_empty in Ee. rewrite forallb_forall in Ee. specialize (Ee _ (required_ids t)).
      cbn in Ee. unfold ids_name in Ee.
      destruct (w_fields w t "particle_ids"); congruence. }
    rewrite E. reflexivity.
  - cbn [map concat]. f_equal. unfold lookup. destruct (w_fields w t "particle_ids"); reflexivity.
Qed.

(** Everything known about a call of [write] that gets as far as opening the file. *)
Definition opened (fz : bool) (st : state) (i : nat) (w : writer) (st' : state) (w' : writer)
           (names : list (nat * Z)) (gen : bool) : Prop :=
  to_write st w ptypes = Ok (names, gen)
  /\ nth_error (writers st') i = Some w' /\ refs_ok st'
  /\ w_sys w' = w_sys w /\ w_a w' = w_a w /\ w_box w' = w_box w
  /\ (exists more, mem st' = mem st ++ more)
  /\ (forall t name, name <> ids_name -> w_fields w' t name = w_fields w t name)
  /\ (gen = false -> st' = st /\ w' = w /\ names <> [] /\ NoDup (all_ids st w names))
  /\ (gen = true -> all_ids st' w' names = arange 1 (1 + sumZ (map snd names))
        /\ forall t, In t (map fst names) -> exists l n, In (t, n) names
          /\ w_fields w' t ids_name = Some l
          /\ exists lo, nth_error (mem st') l = Some (wrap_plain (w_a w) [n] (arange lo (n + lo)))).

Lemma write_cases : forall fz st i w st' out, refs_ok st -> mem_shaped st ->
  nth_error (writers st) i = Some w -> write fz st i = (st', out) ->
  (exists e, out = NotCreated e /\ st' = st
     /\ (to_write st w ptypes = Err e
         \/ (exists names, to_write st w ptypes = Ok (names, false) /\ e = ValueError
              /\ (names = [] \/ ~ NoDup (all_ids st w names)))))
  \/ (exists w' names gen, opened fz st i w st' w' names gen /\ out = write_file fz st' w' names).
Proof.
  intros fz st i w st' out Hok Hs Hw H. unfold write in H. rewrite Hw in H.
  destruct (to_write st w ptypes) as [[names gen]|e] eqn:Et.
  - destruct gen.
    + destruct (generate_ids st i w names 1) as [st1 r] eqn:Eg.
      destruct (generate_ids_spec names st i w 1 st1 r) as
        (w' & -> & G1 & G2 & G3 & G4 & G5 & G6 & G7 & G8 & G9); auto; try lia.
      { eapply names_nonneg; eauto. }
      { apply (names_types _ _ _ _ Et). }
      inversion H; subst. right. exists w', names, true. split; [|reflexivity].
      unfold opened. repeat (split; [auto; fail|]). split; [discriminate|].
      intros _. split; [exact G9|]. intros t Ht. destruct (G8 t Ht) as (l & n & A & B & lo & C & _).
      exists l, n. split; auto. split; auto. exists lo. exact C.
    + destruct names as [|p rest].
      * inversion H; subst. left. exists ValueError. repeat split; auto. right. eauto.
      * destruct (distinctb (all_ids st w (p :: rest))) eqn:Ed; cbn [negb] in H; inversion H; subst.
        -- right. exists w, (p :: rest), false. split; [|reflexivity]. unfold opened.
           repeat (split; [auto; fail|]). split; [exists []; rewrite app_nil_r; reflexivity|].
           split; [auto|]. split; [|discriminate]. intros _. repeat split; auto; [discriminate|].
           apply distinctb_iff. exact Ed.
        -- left. exists ValueError. repeat split; auto. right. exists (p :: rest).
           repeat split; auto. right. rewrite <- distinctb_iff. congruence.
  - inversion H; subst. left. exists e. auto.
Qed.

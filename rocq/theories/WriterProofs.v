From Coq Require Import String List ZArith Bool Reals QArith Qreals Lia Lra.
From Verif Require Import Base BaseLemmas CosmoModel CosmoSpec CosmoProofs CosmoHeapProofs.
From Verif Require Import WriterModel WriterSpec.
Import ListNotations.
Open Scope R_scope.

(** * Units *)

Lemma dims_eqb_eq : forall x y, dims_eqb x y = true <-> dims_eq x y.
Proof.
  intros x y. unfold dims_eqb, dims_eq. rewrite !andb_true_iff, !Qeq_bool_iff. tauto.
Qed.

Lemma upow_pos : forall u e, 0 < upow u e.
Proof. intros. unfold upow, Rpower. apply exp_pos. Qed.

Lemma upow_Qeq : forall u e e', (e == e')%Q -> upow u e = upow u e'.
Proof. intros u e e' H. unfold upow. rewrite (Qeq_eqR _ _ H). reflexivity. Qed.

Lemma upow_zero : forall u e, (e == 0)%Q -> upow u e = 1.
Proof.
  intros u e H. rewrite (upow_Qeq u _ _ H). unfold upow, Rpower.
  replace (Q2R 0) with 0 by (unfold Q2R; cbn; lra). rewrite Rmult_0_l. apply exp_0.
Qed.

Lemma base_unit_pos : forall s d, 0 < base_unit s d.
Proof.
  intros. unfold base_unit. repeat apply Rmult_lt_0_compat; apply upow_pos.
Qed.

Lemma base_unit_eq : forall s d d', dims_eq d d' -> base_unit s d = base_unit s d'.
Proof.
  intros s d d' (H1 & H2 & H3 & H4 & H5 & H6). unfold base_unit.
  rewrite (upow_Qeq _ _ _ H1), (upow_Qeq _ _ _ H2), (upow_Qeq _ _ _ H3),
    (upow_Qeq _ _ _ H4), (upow_Qeq _ _ _ H5), (upow_Qeq _ _ _ H6). reflexivity.
Qed.

(** * Conversions keep the meaning *)

Lemma phys_mult : forall k x, (forall v : R, In v (avals x) -> True) ->
  phys (mkarr (map (fun v => v * k) (avals x)) (acf x) (acm x) (avt x) (acomp x))
  = map (fun v => v * k) (phys x).
Proof.
  intros k x _. unfold phys. cbn [acm acf avals].
  destruct (acm x) as [[|]|]; try reflexivity.
  destruct (acf x) as [[[e|] [a|]]|]; try reflexivity.
  rewrite !map_map. apply map_ext. intro. ring.
Qed.

Lemma cgs_to_base : forall s x, cgs (convert_to_base s x) = cgs x.
Proof.
  intros s x. unfold cgs, convert_to_base. cbn [wdata wunit].
  rewrite phys_mult by auto. rewrite map_map. apply map_ext. intro v.
  pose proof (base_unit_pos s (wdims x)). field. lra.
Qed.

Lemma conv_cases : forall x y, convert_to_comoving x = Ok y ->
  (y = x /\ acm x = Some true)
  \/ (acm x = Some false /\ exists e a, acf x = Some (mkcf (Some e) (Some a))
      /\ y = mkarr (map (fun v => v / Rpower a e) (avals x)) (acf x) (Some true) (avt x) (acomp x)).
Proof.
  intros x y H. unfold convert_to_comoving in H.
  destruct (acm x) as [[|]|] eqn:E.
  - left. inversion H. auto.
  - right. split; [reflexivity|].
    destruct (negb (avt x) || false); [discriminate|].
    unfold factor_of in H. destruct (acf x) as [[[e|] [a|]]|]; try discriminate.
    cbn in H. inversion H. exists e, a. auto.
  - rewrite orb_true_r in H. discriminate.
Qed.

Lemma conv_phys : forall x y, convert_to_comoving x = Ok y -> phys y = phys x.
Proof.
  intros x y H. destruct (conv_cases _ _ H) as [[-> _] | (Hc & e & a & Hf & ->)]; [reflexivity|].
  unfold phys. cbn [acm acf avals]. rewrite Hc, Hf. rewrite map_map.
  erewrite map_ext; [apply map_id|]. intro v. cbn. field. apply Rpower_nz.
Qed.

Lemma conv_attrs : forall x y, convert_to_comoving x = Ok y ->
  acm y = Some true /\ acf y = acf x /\ length (avals y) = length (avals x).
Proof.
  intros x y H. destruct (conv_cases _ _ H) as [[-> Hc] | (Hc & e & a & Hf & ->)].
  - auto.
  - cbn. rewrite map_length. auto.
Qed.

(** * Lists in memory *)

Lemma nth_upd_same : forall A (l : list A) i x, (i < length l)%nat -> nth_error (upd i x l) i = Some x.
Proof. induction l as [|h t IH]; intros [|i] x H; cbn in *; try lia; auto. apply IH. lia. Qed.

Lemma nth_upd_other : forall A (l : list A) i j x, i <> j -> nth_error (upd i x l) j = nth_error l j.
Proof.
  induction l as [|h t IH]; intros [|i] [|j] x H; cbn; auto; try congruence.
Qed.

Lemma upd_len : forall A (l : list A) i x, length (upd i x l) = length l.
Proof. induction l as [|h t IH]; intros [|i] x; cbn; auto. Qed.

Lemma nth_app_some : forall A (l m : list A) i x, nth_error l i = Some x -> nth_error (l ++ m) i = Some x.
Proof. intros. rewrite nth_error_app1; auto. apply nth_error_Some. congruence. Qed.

Lemma nth_app_last : forall A (l : list A) x, nth_error (l ++ [x]) (length l) = Some x.
Proof. intros. rewrite nth_error_app2, Nat.sub_diag; auto. Qed.

(** * The setter *)

(** The three ways a setter ends: nothing changed; the array converted to base units
    but not assigned; assigned. *)
Inductive set_case (st : state) (i : nat) (w : writer) (t : nat) (name : string) (d : dims)
          (g : given) : state * res unit -> Prop :=
| sc_same : forall e, set_case st i w t name d g (st, Err e)
| sc_half : forall l x e, nth_error (mem st) l = Some x -> dims_eq (wdims x) d ->
    ~ dims_eq d d_none -> acm (wdata x) <> Some true ->
    set_case st i w t name d g
      (mkstate (upd l (convert_to_base (w_sys w) x) (mem st)) (writers st), Err e)
| sc_arr : forall l x c y, g = GArr l -> nth_error (mem st) l = Some x -> dims_eq (wdims x) d ->
    ~ dims_eq d d_none -> acf (wdata x) = Some c -> cscale c = Some (w_a w) ->
    convert_to_comoving (wdata (convert_to_base (w_sys w) x)) = Ok y ->
    set_case st i w t name d g
      (mkstate (upd l (set_data (convert_to_base (w_sys w) x) y) (mem st))
               (upd i (set_field w t name (Some l)) (writers st)), Ok tt)
| sc_new : forall y, dims_eq d d_none ->
    (exists shape v, wshape y = shape /\ check_ids name shape v = Ok tt
       /\ (g = GPlain shape v /\ y = wrap_plain (w_a w) shape v
           \/ exists l x, g = GArr l /\ nth_error (mem st) l = Some x /\ wshape x = shape
              /\ avals (wdata x) = v /\ check_scale (w_a w) x = Ok tt
              /\ wrap_dimensionless (w_a w) x = Ok y)) ->
    set_case st i w t name d g
      (mkstate (mem st ++ [y]) (upd i (set_field w t name (Some (length (mem st)))) (writers st)),
       Ok tt).

Lemma wrap_dimensionless_shape : forall a x y, wrap_dimensionless a x = Ok y ->
  wshape y = wshape x /\ acm (wdata y) = Some true
  /\ length (avals (wdata y)) = length (avals (wdata x)).
Proof.
  intros a x y H. unfold wrap_dimensionless in H.
  destruct (acf (wdata x)) as [c|]; [|discriminate].
  destruct (bind_ok _ _ _ _ _ H) as (c' & _ & H2). cbv zeta in H2.
  destruct (bind_ok _ _ _ _ _ H2) as (z & Hz & Hy). inversion Hy. subst y. cbn.
  apply conv_attrs in Hz. cbn in Hz. tauto.
Qed.

Lemma setter_cases : forall st i w t name d g,
  set_case st i w t name d g (setter st i w t name d g).
Proof.
  intros. unfold setter.
  destruct g as [l | shape v].
  - destruct (nth_error (mem st) l) as [x|] eqn:Ex.
    + unfold check_scale. destruct (acf (wdata x)) as [c|] eqn:Ec; [|constructor].
      destruct (oreqb (cscale c) (Some (w_a w))) eqn:Es; [|constructor].
      apply oreqb_true in Es.
      destruct (dims_eqb d d_none) eqn:Ed; cbn [negb].
      * destruct (check_ids name (wshape x) (avals (wdata x))) as [[]|] eqn:Ei; cbn [bind];
          [|constructor].
        destruct (wrap_dimensionless (w_a w) x) as [y|] eqn:Ew; [|constructor].
        apply sc_new.
        -- apply dims_eqb_eq. exact Ed.
        -- exists (wshape x), (avals (wdata x)). split; [|split; [exact Ei|]].
           ++ apply wrap_dimensionless_shape in Ew. tauto.
           ++ right. exists l, x. repeat split; auto. unfold check_scale. rewrite Ec, Es.
              rewrite oreqb_refl. reflexivity.
      * destruct (dims_eqb (wdims x) d) eqn:Ex2; [|constructor].
        destruct (convert_to_comoving _) as [y|e] eqn:Ey.
        -- unfold upd_writer. cbn [mem writers]. eapply sc_arr; eauto.
           apply dims_eqb_eq; auto.
           intro Hc. apply dims_eqb_eq in Hc. congruence.
        -- eapply sc_half; eauto.
           ++ apply dims_eqb_eq; auto.
           ++ intro Hc. apply dims_eqb_eq in Hc. congruence.
           ++ intro Hc. unfold convert_to_comoving in Ey. cbn [convert_to_base wdata acm] in Ey.
              rewrite Hc in Ey. discriminate.
    + destruct (dims_eqb d d_none); cbn; constructor.
  - destruct (dims_eqb d d_none) eqn:Ed; cbn [negb]; [|constructor].
    destruct (check_ids name shape v) as [[]|] eqn:Ei; cbn [bind]; [|constructor].
    apply sc_new; [apply dims_eqb_eq; exact Ed|].
    exists shape, v. repeat split; auto.
Qed.

(** * Invariant of states *)

(** References are valid; every dimensional field is in base units and comoving. *)
Definition field_ok (w : writer) (st : state) (t : nat) (name : string) (l : nat) : Prop :=
  exists x, nth_error (mem st) l = Some x.

Definition refs_ok (st : state) : Prop :=
  forall i w t name l, nth_error (writers st) i = Some w -> w_fields w t name = Some l ->
    field_ok w st t name l.

Lemma set_field_lookup : forall w t name v t' n',
  w_fields (set_field w t name v) t' n' =
  if Nat.eqb t' t && String.eqb n' name then v else w_fields w t' n'.
Proof. reflexivity. Qed.

Lemma upd_writers_cases : forall (ws : list writer) i j w w',
  nth_error (upd i w ws) j = Some w' ->
  (j = i /\ w' = w /\ (i < length ws)%nat) \/ (j <> i /\ nth_error ws j = Some w').
Proof.
  intros ws i j w w' H. destruct (Nat.eq_dec j i) as [->|Hn].
  - left. assert (i < length ws)%nat.
    { rewrite <- (upd_len _ ws i w). apply nth_error_Some. congruence. }
    rewrite nth_upd_same in H by auto. inversion H. auto.
  - right. rewrite nth_upd_other in H by auto. auto.
Qed.

Lemma refs_ok_setter : forall st i w t name d g, refs_ok st -> nth_error (writers st) i = Some w ->
  refs_ok (fst (setter st i w t name d g)).
Proof.
  intros st i w t name d g Hok Hw.
  destruct (setter_cases st i w t name d g); cbn [fst].
  - exact Hok.
  - intros j w' t' n' l' Hj Hf. cbn in Hj. destruct (Hok _ _ _ _ _ Hj Hf) as (z & Hz).
    cbn. destruct (Nat.eq_dec l l') as [<-|Hn].
    + eexists. apply nth_upd_same. apply nth_error_Some. cbn in *; congruence.
    + exists z. cbn. rewrite nth_upd_other; auto.
  - intros j w' t' n' l' Hj Hf. cbn in Hj.
    assert (Hl : forall l1, (exists z, nth_error (mem st) l1 = Some z) -> exists z,
               nth_error (upd l (set_data (convert_to_base (w_sys w) x) y) (mem st)) l1 = Some z).
    { intros l1 [z Hz]. destruct (Nat.eq_dec l l1) as [<-|Hn].
      - eexists. apply nth_upd_same. apply nth_error_Some. congruence.
      - exists z. rewrite nth_upd_other; auto. }
    apply Hl.
    destruct (upd_writers_cases _ _ _ _ _ Hj) as [(-> & -> & _) | (Hn & Hj')].
    + rewrite set_field_lookup in Hf. destruct (_ && _).
      * inversion Hf. subst. eauto.
      * destruct (Hok _ _ _ _ _ Hw Hf); eauto.
    + destruct (Hok _ _ _ _ _ Hj' Hf); eauto.
  - intros j w' t' n' l' Hj Hf. cbn in Hj. unfold field_ok. cbn.
    destruct (upd_writers_cases _ _ _ _ _ Hj) as [(-> & -> & _) | (Hn & Hj')].
    + rewrite set_field_lookup in Hf. destruct (_ && _).
      * inversion Hf. subst. eexists. apply nth_app_last.
      * destruct (Hok _ _ _ _ _ Hw Hf) as (z & Hz). exists z. apply nth_app_some. auto.
    + destruct (Hok _ _ _ _ _ Hj' Hf) as (z & Hz). exists z. apply nth_app_some. auto.
Qed.

(** * ID generation *)

Lemma zrange_in : forall a b x, In x (zrange a b) -> (a <= x < b)%Z.
Proof.
  intros a b x H. unfold zrange in H. apply in_map_iff in H. destruct H as (k & <- & H).
  apply in_seq in H. lia.
Qed.

Lemma zrange_nodup : forall a b, NoDup (zrange a b).
Proof.
  intros. unfold zrange. apply FinFun.Injective_map_NoDup; [|apply seq_NoDup].
  intros x y H. lia.
Qed.

Lemma arange_nodup : forall a b, NoDup (arange a b).
Proof.
  intros. unfold arange. apply FinFun.Injective_map_NoDup; [|apply zrange_nodup].
  intros x y H. apply eq_IZR. exact H.
Qed.

Lemma distinctb_iff : forall l, distinctb l = true <-> NoDup l.
Proof.
  induction l as [|x t IH]; cbn.
  - split; [constructor|reflexivity].
  - rewrite andb_true_iff, negb_true_iff, IH. split.
    + intros [H1 H2]. constructor; auto. intro Hin.
      assert (existsb (Reqb x) t = true).
      { apply existsb_exists. exists x. split; auto. apply Reqb_refl. }
      congruence.
    + intro H. inversion H; subst. split; auto.
      apply not_true_iff_false. intro Hc. apply existsb_exists in Hc.
      destruct Hc as (y & Hy & E). apply Reqb_true in E. subst y. contradiction.
Qed.

Lemma arange_pos : forall a b, (0 < a)%Z -> existsb (fun x => Rleb x 0) (arange a b) = false.
Proof.
  intros a b Ha. apply not_true_iff_false. intro H. apply existsb_exists in H.
  destruct H as (x & Hx & E). unfold arange in Hx. apply in_map_iff in Hx.
  destruct Hx as (z & <- & Hz). apply zrange_in in Hz. apply Rleb_true in E.
  apply le_IZR in E. lia.
Qed.

Lemma wrap_generated : forall a shape v,
  wrap_dimensionless a (wrap_plain a shape v) = Ok (wrap_plain a shape v).
Proof.
  intros. unfold wrap_dimensionless, wrap_plain. cbn [wdata acf].
  assert (E : cf_eq (cf_create a 0) null_cf = false) by reflexivity.
  rewrite E, cf_eq_refl. cbn [bind]. reflexivity.
Qed.

Lemma check_ids_iff : forall n v, check_ids "particle_ids" [n] v =
  if existsb (fun x => Rleb x 0) v then Err ValueError
  else if negb (distinctb v) then Err ValueError else Ok tt.
Proof. reflexivity. Qed.

Lemma setter_generated : forall st i w t n used, (0 < used)%Z ->
  nth_error (writers st) i = Some w ->
  let x := wrap_plain (w_a w) [n] (arange used (n + used)) in
  setter (mkstate (mem st ++ [x]) (writers st)) i w t "particle_ids" d_none (GArr (length (mem st)))
  = (mkstate ((mem st ++ [x]) ++ [x])
             (upd i (set_field w t "particle_ids" (Some (S (length (mem st))))) (writers st)), Ok tt).
Proof.
  intros st i w t n used Hu Hw x. unfold setter. cbn [mem writers].
  rewrite nth_app_last.
  assert (E1 : check_scale (w_a w) x = Ok tt).
  { unfold check_scale, x. cbn [wrap_plain wdata acf cf_create cscale].
    rewrite oreqb_refl. reflexivity. }
  assert (E2 : check_ids "particle_ids" (wshape x) (avals (wdata x)) = Ok tt).
  { unfold x. cbn [wrap_plain wshape wdata avals]. rewrite check_ids_iff, arange_pos by auto.
    rewrite (proj2 (distinctb_iff _) (arange_nodup _ _)). reflexivity. }
  assert (E3 : wrap_dimensionless (w_a w) x = Ok x) by apply wrap_generated.
  rewrite E1. change (negb (dims_eqb d_none d_none)) with false. cbv iota.
  rewrite E2. cbn [bind]. rewrite E3. rewrite app_length. cbn [length].
  replace (length (mem st) + 1)%nat with (S (length (mem st))) by lia. reflexivity.
Qed.

(** What [_generate_ids] leaves behind. *)
Lemma generate_ids_spec : forall names st i w used st' r,
  (0 < used)%Z -> Forall (fun p => (0 <= snd p)%Z) names -> NoDup (map fst names) ->
  nth_error (writers st) i = Some w -> refs_ok st ->
  generate_ids st i w names used = (st', r) ->
  exists w', r = Ok w' /\ nth_error (writers st') i = Some w' /\ refs_ok st'
    /\ w_sys w' = w_sys w /\ w_a w' = w_a w /\ w_box w' = w_box w
    /\ (exists more, mem st' = mem st ++ more)
    /\ (forall t name, (name <> "particle_ids"%string \/ ~ In t (map fst names)) ->
          w_fields w' t name = w_fields w t name)
    /\ (forall t, In t (map fst names) -> exists l n, In (t, n) names
          /\ w_fields w' t "particle_ids" = Some l
          /\ exists lo, nth_error (mem st') l = Some (wrap_plain (w_a w) [n] (arange lo (n + lo)))
                        /\ (used <= lo)%Z)
    /\ all_ids st' w' names = arange used (used + sumZ (map snd names)).
Proof.
  induction names as [|[t n] rest IH]; intros st i w used st' r Hu Hn Hd Hw Hok H; cbn in H.
  - inversion H; subst. exists w. repeat split; auto.
    + exists []. rewrite app_nil_r. reflexivity.
    + intros t0 [].
    + cbn. unfold all_ids, arange, zrange. cbn. replace (used + 0 - used)%Z with 0%Z by lia.
      reflexivity.
  - rewrite (setter_generated st i w t n used Hu Hw) in H.
    set (x := wrap_plain (w_a w) [n] (arange used (n + used))) in *.
    cbn [writers] in H.
    assert (Hi : (i < length (writers st))%nat) by (apply nth_error_Some; congruence).
    rewrite nth_upd_same in H by auto.
    set (w2 := set_field w t "particle_ids" (Some (S (length (mem st))))) in *.
    set (st2 := mkstate ((mem st ++ [x]) ++ [x]) (upd i w2 (writers st))) in *.
    inversion Hn as [|? ? Hn1 Hn2]; subst. cbn in Hn1. inversion Hd as [|? ? Hd1 Hd2]; subst.
    assert (Hok2 : refs_ok st2).
    { intros j w' t' n' l' Hj Hf. cbn in Hj. unfold field_ok, st2. cbn [mem].
      destruct (upd_writers_cases _ _ _ _ _ Hj) as [(-> & -> & _) | (Hne & Hj')].
      - unfold w2 in Hf. rewrite set_field_lookup in Hf. destruct (_ && _).
        + inversion Hf; subst. exists x.
          replace (S (length (mem st))) with (length (mem st ++ [x])) by (rewrite app_length; cbn; lia).
          apply nth_app_last.
        + destruct (Hok _ _ _ _ _ Hw Hf) as (z & Hz). exists z. do 2 apply nth_app_some. auto.
      - destruct (Hok _ _ _ _ _ Hj' Hf) as (z & Hz). exists z. do 2 apply nth_app_some. auto. }
    assert (Hw2 : nth_error (writers st2) i = Some w2) by (cbn; apply nth_upd_same; auto).
    assert (Hu2 : (0 < used + n)%Z) by lia.
    destruct (IH st2 i w2 (used + n)%Z st' r Hu2 Hn2 Hd2 Hw2 Hok2 H)
      as (w' & -> & Hw' & Hok' & Hs & Ha & Hb & (more & Hm) & Hf & Hg & Hall).
    exists w'. split; [reflexivity|]. split; [auto|]. split; [auto|].
    split; [auto|]. split; [auto|]. split; [auto|].
    assert (Hmt : w_fields w' t "particle_ids" = Some (S (length (mem st)))).
    { rewrite Hf by (right; auto). unfold w2. rewrite set_field_lookup, Nat.eqb_refl. reflexivity. }
    assert (Hx : nth_error (mem st') (S (length (mem st))) = Some x).
    { rewrite Hm. apply nth_app_some. unfold st2. cbn [mem].
      replace (S (length (mem st))) with (length (mem st ++ [x])) by (rewrite app_length; cbn; lia).
      apply nth_app_last. }
    split; [|split; [|split]].
    + exists (([x] ++ [x]) ++ more). rewrite Hm. cbn. rewrite <- !app_assoc. reflexivity.
    + intros t0 name Hor. rewrite Hf.
      * unfold w2. rewrite set_field_lookup.
        destruct (Nat.eqb t0 t) eqn:Et; cbn [andb]; [|reflexivity].
        apply Nat.eqb_eq in Et. subst t0.
        destruct (String.eqb name "particle_ids") eqn:En; [|reflexivity].
        apply String.eqb_eq in En. destruct Hor as [Hor|Hor]; [contradiction|].
        exfalso. apply Hor. cbn. auto.
      * destruct Hor as [Hor|Hor]; [left; auto|]. right. intro Hc. apply Hor. cbn. auto.
    + intros t0 Ht0. cbn in Ht0. destruct Ht0 as [<-|Ht0].
      * exists (S (length (mem st))), n. split; [left; reflexivity|]. split; [auto|].
        exists used. split; [exact Hx|lia].
      * destruct (Hg t0 Ht0) as (l & n0 & Hin & Hl & lo & Hlo & Hle).
        exists l, n0. split; [right; auto|]. split; [auto|]. exists lo. split; [|lia].
        unfold w2 in Hlo. cbn in Hlo. exact Hlo.
    + unfold all_ids in *. cbn [map concat fst snd sumZ fold_right].
      unfold lookup at 1. rewrite Hmt, Hx. rewrite Hall.
      cbn [x wrap_plain wdata avals]. unfold arange. rewrite <- map_app. f_equal.
      fold (sumZ (map snd rest)).
      assert (0 <= sumZ (map snd rest))%Z.
      { clear - Hn2. induction Hn2; cbn; [lia|]. unfold sumZ in *. lia. }
      unfold zrange.
      replace (Z.to_nat (used + (n + sumZ (map snd rest)) - used))
        with (Z.to_nat (n + used - used) + Z.to_nat (used + n + sumZ (map snd rest) - (used + n)))%nat
        by lia.
      rewrite seq_app, map_app. f_equal. cbn [Nat.add].
      assert (Hsh : forall m b, map (fun k => (used + n + Z.of_nat k)%Z) (seq b m)
                    = map (fun k => (used + Z.of_nat k)%Z) (seq (Z.to_nat (n + used - used) + b) m)).
      { induction m as [|m IHm]; intro b; cbn; [reflexivity|]. f_equal; [lia|].
        rewrite IHm. rewrite Nat.add_succ_r. reflexivity. }
      rewrite Hsh, Nat.add_0_r. reflexivity.
Qed.
